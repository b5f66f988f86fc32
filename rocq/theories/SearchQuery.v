(** Proofs about the search tree: sequences of insertions and queries. *)
From Coq Require Import List Arith Bool ZArith Lia Permutation.
From Verif Require Import StlModel SearchModel Perm SearchProofs SearchInsert.
Import ListNotations.

Section S.
Variable A : arith.
Hypothesis HA : ordered A.
Notation D := (num A).
Notation box := (aabb A).
Notation nd := (node A).
Notation st := (tree A).
Notation bt := (bt A).
Notation rep := (rep A). Notation wf := (wf A).
Notation ids := (ids A). Notation idx := (idx A). Notation leaves := (leaves A).
Notation box_of := (box_of A).
Notation pool := (pool A). Notation holds := (holds A).

(** The particles and boxes in the tree. *)
Definition stored (m : nat -> nd) (s : bt) : list (nat * box) := map (fun e => (n_part A (m (fst e)), snd e)) (leaves s).
Definition inv (t : st) (ps : list (nat * box)) : Prop :=
  exists L, pool (t_nodes A t) (t_cap A t) (t_count A t) (t_free A t) L /\
    map fst (t_map A t) = map fst ps /\
    match t_root A t with
    | None => ps = []
    | Some r => exists s, r = idx s /\ holds (t_nodes A t) (t_cap A t) L s /\ Permutation (stored (t_nodes A t) s) ps
    end.

Lemma new_inv junk : inv (new_tree A junk) [].
Proof.
  exists (seq 0 16). split; [ | split; reflexivity]. unfold SearchInsert.pool, new_tree. cbn [t_nodes t_cap t_count t_free].
  split; [ | split; [apply seq_NoDup | split; [ | split; [reflexivity | unfold pool_size; lia]]]].
  - apply (link_all_free A 0 15 junk). lia.
  - intros j J. apply in_seq in J. unfold pool_size. lia.
Qed.

Lemma leaves_ids s e : In e (leaves s) -> In (fst e) (ids s).
Proof.
  induction s as [i b | i b h l IHl r IHr]; cbn.
  - intros [<- | []]. auto.
  - rewrite !in_app_iff. tauto.
Qed.
Lemma stored_ext m m' s : (forall j, In j (ids s) -> n_part A (m' j) = n_part A (m j)) -> stored m' s = stored m s.
Proof.
  intros H. unfold stored. apply map_ext_in. intros e He. rewrite H; [reflexivity | apply leaves_ids, He].
Qed.

Lemma existsb_fst p (l : list (nat * nat)) : existsb (fun e => fst e =? p) l = true <-> In p (map fst l).
Proof.
  rewrite existsb_exists, in_map_iff. split; intros (e & H1 & H2); exists e.
  - apply Nat.eqb_eq in H2. auto.
  - subst. rewrite Nat.eqb_refl. auto.
Qed.

Lemma bind_none {X Y} (x : option X) : bind (Y := Y) x (fun _ => None) = None.
Proof. destruct x; reflexivity. Qed.

(** One insertion. *)
Definition accepts (ps : list (nat * box)) (p : nat) (b : box) : bool :=
  negb (existsb (fun e => fst e =? p) ps) && negb (bad_bounds A b).
Lemma insert_particle_ok t ps p b :
  inv t ps -> (Z.of_nat (t_count A t) + 1 < 2 ^ 31)%Z ->
  exists t', insert_particle A p b t = Some (negb (accepts ps p b), t') /\
    inv t' (if accepts ps p b then (p, b) :: ps else ps) /\
    t_count A t' <= 2 + t_count A t.
Proof.
  intros (L & Hpool & Hmap & Hroot) Hn. unfold insert_particle, accepts.
  assert (He : existsb (fun e => fst e =? p) (t_map A t) = existsb (fun e => fst e =? p) ps).
  { apply eq_true_iff_eq. rewrite existsb_fst, Hmap. rewrite existsb_exists, in_map_iff. split; intros (e & H1 & H2); exists e.
    - subst. rewrite Nat.eqb_refl. auto.
    - apply Nat.eqb_eq in H2. auto. }
  rewrite He. destruct (existsb (fun e => fst e =? p) ps) eqn:E.
  { exists t. split; [reflexivity | ]. split; [exists L; auto | lia]. }
  cbn [negb andb].
  destruct t as [m c n f rt mp]. cbn [t_nodes t_cap t_count t_free t_root t_map] in *.
  destruct (alloc_ok A m c n f rt mp L Hpool) as (i & m1 & c1 & f1 & L1 & Ea & Hpool1 & Hcc & Hic & HiL & G1 & G2 & G3 & G4 & Hold); [lia | ].
  rewrite Ea. cbn [bind fst snd].
  (* the tree is still there *)
  assert (Keep : match rt with
    | None => ps = []
    | Some r => exists s, r = idx s /\ holds m1 c1 L1 s /\ ~ In i (ids s) /\ Permutation (stored m1 s) ps end).
  { destruct rt as [r | ]; [ | exact Hroot]. destruct Hroot as (s & -> & (H1 & H2 & H3 & H4) & H5). exists s. split; [reflexivity | ].
    assert (K : forall j, In j (ids s) -> j <> i /\ ~ In j L1 /\ m1 j = m j) by (intros j J; apply Hold; apply H4, J).
    split; [ | split].
    - split; [eapply rep_ext; [ | exact H1]; intros j J; apply K, J | ]. split; [exact H2 | ]. split; [exact H3 | ].
      intros j J. split; [destruct (H4 j J); lia | apply K, J].
    - intros J. apply (proj1 (K i J)). reflexivity.
    - rewrite (stored_ext m m1); [exact H5 | ]. intros j J. rewrite (proj2 (proj2 (K j J))). reflexivity. }
  destruct (bad_bounds A b) eqn:Eb.
  { eexists. split; [reflexivity | ]. split; [ | cbn [t_count]; lia]. exists L1.
    cbn [t_nodes t_cap t_count t_free t_root t_map]. split; [exact Hpool1 | ]. split; [exact Hmap | ].
    destruct rt as [r | ]; [ | exact Keep]. destruct Keep as (s & K1 & K2 & _ & K4). exists s. auto. }
  cbn [negb]. apply bad_bounds_valid in Eb.
  unfold wr at 1. cbn [t_cap t_nodes]. rewrite (proj2 (Nat.ltb_lt _ _) Hic). unfold with_nodes. cbn [bind t_cap t_nodes t_count t_free t_root t_map].
  remember (upd A m1 i (set_height A 0 (set_box A b (m1 i)))) as m2 eqn:Em2.
  assert (M2i : m2 i = set_height A 0 (set_box A b (m1 i))) by (subst m2; unfold upd; rewrite Nat.eqb_refl; reflexivity).
  assert (M2 : forall j, j <> i -> m2 j = m1 j) by (intros j J; subst m2; unfold upd; apply Nat.eqb_neq in J; rewrite J; reflexivity).
  clear Em2.
  assert (Hpool2 : pool m2 c1 (S n) f1 L1).
  { destruct Hpool1 as (Q1 & Q2 & Q3 & Q4 & Q5). split; [ | auto]. eapply freel_ext; [ | exact Q1].
    intros j J. apply M2. intros ->. exact (HiL J). }
  destruct rt as [r | ].
  - destruct Keep as (s & -> & (H1 & H2 & H3 & H4) & H5 & H6).
    assert (K2 : forall j, In j (ids s) -> m2 j = m1 j) by (intros j J; apply M2; intros ->; exact (H5 J)).
    destruct (insert_leaf_ok A HA m2 c1 (S n) f1 mp L1 s i b) as (x & Ex & m3 & c3 & f3 & L3 & s3 & -> & R1 & R2 & R3 & R4 & R5).
    + exact Hpool2.
    + lia.
    + split; [eapply rep_ext; [ | exact H1]; exact K2 | ]. auto.
    + exact Hic.
    + exact HiL.
    + exact H5.
    + cbn [SearchProofs.rep]. rewrite M2i. cbn. auto.
    + exact Eb.
    + rewrite Ex. cbn [bind]. unfold wr. cbn [t_cap t_nodes]. rewrite (proj2 (Nat.ltb_lt _ _) R5). unfold with_nodes.
      cbn [bind t_cap t_nodes t_count t_free t_root t_map].
      eexists. split; [reflexivity | ]. cbn [t_count]. split; [ | lia].
      remember (upd A m3 i (set_part A p (m3 i))) as m4 eqn:Em4.
      assert (M4i : m4 i = set_part A p (m3 i)) by (subst m4; unfold upd; rewrite Nat.eqb_refl; reflexivity).
      assert (M4 : forall j, j <> i -> m4 j = m3 j) by (intros j J; subst m4; unfold upd; apply Nat.eqb_neq in J; rewrite J; reflexivity).
      clear Em4.
      destruct R2 as (S1 & S2 & S3 & S4).
      assert (Ii : In i (ids s3)).
      { apply (leaves_ids s3 (i, b)). eapply Permutation_in; [symmetry; exact R3 | left; reflexivity]. }
      exists L3. cbn [t_nodes t_cap t_count t_free t_root t_map]. split; [ | split].
      * destruct R1 as (Q1 & Q2 & Q3 & Q4 & Q5). split; [ | auto]. eapply freel_ext; [ | exact Q1].
        intros j J. apply M4. intros ->. apply (proj2 (S4 i Ii)), J.
      * cbn [map fst]. rewrite Hmap. reflexivity.
      * exists s3. split; [reflexivity | ]. split.
        -- split; [ | auto]. clear - S1 M4 M4i. revert S1. generalize (@None nat). induction s3 as [j bj | j bj h l IHl r IHr]; intros par; cbn [SearchProofs.rep];
             destruct (Nat.eq_dec j i) as [-> | J]; rewrite ?M4i, ?(M4 j J); cbn; intuition auto.
        -- unfold stored. rewrite (Permutation_map _ R3). cbn [map fst snd]. rewrite M4i. cbn [n_part set_part]. apply perm_skip.
           rewrite <- H6. apply Permutation_refl'. unfold stored. apply map_ext_in. intros e Hee.
           pose proof (leaves_ids _ _ Hee) as Hj. rewrite M4 by (intros E2; apply H5; rewrite <- E2; exact Hj).
           rewrite R4 by (right; exact Hj). rewrite K2 by exact Hj. reflexivity.
  - subst ps. unfold insert_leaf. cbn [t_root]. unfold with_root, wr at 1. cbn [t_cap t_nodes t_count t_free t_map].
    rewrite (proj2 (Nat.ltb_lt _ _) Hic). unfold with_nodes. cbn [bind t_cap t_nodes t_count t_free t_root t_map].
    unfold wr. cbn [t_cap t_nodes]. rewrite (proj2 (Nat.ltb_lt _ _) Hic). unfold with_nodes. cbn [bind t_cap t_nodes t_count t_free t_root t_map].
    eexists. split; [reflexivity | ]. cbn [t_count]. split; [ | lia].
    exists L1. cbn [t_nodes t_cap t_count t_free t_root t_map].
    remember (upd A (upd A m2 i (set_parent A None (m2 i))) i (set_part A p (upd A m2 i (set_parent A None (m2 i)) i))) as m4 eqn:Em4.
    assert (M4i : m4 i = set_part A p (set_parent A None (m2 i))) by (subst m4; unfold upd; rewrite !Nat.eqb_refl; reflexivity).
    assert (M4 : forall j, j <> i -> m4 j = m2 j) by (intros j J; subst m4; unfold upd; apply Nat.eqb_neq in J; rewrite J; reflexivity).
    clear Em4.
    split; [ | split].
    + destruct Hpool2 as (Q1 & Q2 & Q3 & Q4 & Q5). split; [ | auto]. eapply freel_ext; [ | exact Q1].
      intros j J. apply M4. intros ->. exact (HiL J).
    + cbn [map fst]. rewrite Hmap. reflexivity.
    + exists (Lf A i b). split; [reflexivity | ]. split.
      * split; [cbn [SearchProofs.rep]; rewrite M4i, M2i; cbn; auto | ]. split; [exact Eb | ]. split; [repeat constructor; auto | ].
        intros j [<- | []]. auto.
      * unfold stored. cbn [SearchProofs.leaves map fst snd]. rewrite M4i. reflexivity.
Qed.

(** A sequence of insertions: which are refused and which boxes are stored. *)
Fixpoint accepted (ps : list (nat * box)) (l : list (nat * box)) : list bool * list (nat * box) :=
  match l with
  | [] => ([], ps)
  | (p, b) :: l' =>
      let r := accepted (if accepts ps p b then (p, b) :: ps else ps) l' in (negb (accepts ps p b) :: fst r, snd r)
  end.
Lemma insert_all_ok l : forall t ps,
  inv t ps -> (Z.of_nat (t_count A t) + 2 * Z.of_nat (length l) <= 2 ^ 31)%Z ->
  exists t', insert_all A l t = Some (fst (accepted ps l), t') /\ inv t' (snd (accepted ps l)).
Proof.
  induction l as [ | [p b] l IH]; intros t ps Ht Hn; cbn [insert_all accepted fst snd].
  - exists t. auto.
  - cbn [length] in Hn.
    destruct (insert_particle_ok t ps p b Ht) as (t1 & E1 & H1 & C1); [lia | ].
    rewrite E1. cbn [bind fst snd]. destruct (IH t1 _ H1) as (t2 & E2 & H2); [lia | ].
    rewrite E2. cbn [bind fst snd]. exists t2. auto.
Qed.

(** Queries. *)
Definition monotone (hit : box -> bool) : Prop := forall a b, inside A a b -> hit a = true -> hit b = true.
Definition found_in (hit : box -> bool) (l : list (nat * box)) : list nat := map fst (List.filter (fun e => hit (snd e)) l).

Lemma found_in_app hit l l' : found_in hit (l ++ l') = found_in hit l ++ found_in hit l'.
Proof. unfold found_in. rewrite filter_app, map_app. reflexivity. Qed.
Lemma found_in_perm hit l l' : Permutation l l' -> Permutation (found_in hit l) (found_in hit l').
Proof.
  intros H. apply Permutation_map. induction H; cbn.
  - constructor.
  - destruct (hit (snd x)); [apply perm_skip | ]; assumption.
  - destruct (hit (snd x)), (hit (snd y)); try reflexivity. apply perm_swap.
  - etransitivity; eassumption.
Qed.
Lemma no_hit hit m s : monotone hit -> wf s -> hit (box_of s) = false -> found_in hit (stored m s) = [].
Proof.
  intros Hm. induction s as [i b | i b h l IHl r IHr]; intros Hw Hh.
  - unfold found_in, stored. cbn in *. rewrite Hh. reflexivity.
  - cbn [SearchProofs.wf] in Hw. destruct Hw as (H1 & H2 & H3 & H4 & H5 & H6). cbn [SearchProofs.box_of] in Hh.
    unfold stored. cbn [SearchProofs.leaves]. rewrite map_app, found_in_app.
    fold (stored m l). fold (stored m r). rewrite IHl, IHr; try reflexivity; try assumption.
    + destruct (hit (box_of r)) eqn:E; [ | reflexivity]. rewrite (Hm _ _ H3 E) in Hh. discriminate.
    + destruct (hit (box_of l)) eqn:E; [ | reflexivity]. rewrite (Hm _ _ H2 E) in Hh. discriminate.
Qed.

(** The subtrees on the stack. *)
Definition on_stack (m : nat -> nd) (c : nat) (s : bt) : Prop := (exists par, rep m par s) /\ wf s /\ (forall j, In j (ids s) -> j < c).
Definition total (l : list bt) : nat := list_sum (map (fun s => length (ids s)) l).
Lemma query_loop_ok hit m c n f rt mp : monotone hit -> forall fuel stack acc,
  Forall (on_stack m c) stack -> total stack < fuel ->
  exists res, query_loop A fuel hit (map (fun s => Some (idx s)) stack) acc (Tree A m c n f rt mp) = Results (acc ++ res) /\
    Permutation res (found_in hit (flat_map (stored m) stack)).
Proof.
  intros Hm. induction fuel as [ | fuel IH]; intros stack acc Hs Hf; [lia | ].
  destruct stack as [ | s stack]; cbn [map query_loop].
  - exists []. rewrite app_nil_r. split; reflexivity.
  - inversion Hs as [ | ? ? ((par & Hrep) & Hw & Hc) Hs']; subst.
    cbn [rdo]. rewrite rd_ok by (apply Hc, idx_ids).
    rewrite (rep_box A m par s Hrep).
    rewrite (proj2 (bad_bounds_valid A _) (wf_valid A _ Hw)).
    unfold total in Hf. cbn [map list_sum fold_right] in Hf.
    cbn [flat_map]. rewrite found_in_app.
    destruct (hit (box_of s)) eqn:Eh.
    + destruct s as [i b | i b h l r].
      * cbn [SearchProofs.rep SearchProofs.idx] in *. destruct Hrep as (H1 & H2 & H3 & H4 & H5).
        unfold is_leaf. rewrite H2.
        destruct (IH stack (acc ++ [n_part A (m i)])) as (res & E & Hp); [exact Hs' | cbn in Hf; unfold total, list_sum; lia | ].
        exists (n_part A (m i) :: res). rewrite E. rewrite <- app_assoc. split; [reflexivity | ].
        unfold stored at 1, found_in at 1. cbn. cbn in Eh. rewrite Eh. cbn. apply perm_skip, Hp.
      * cbn [SearchProofs.rep SearchProofs.idx] in *. destruct Hrep as (H1 & H2 & H3 & H4 & H5 & H6 & H7).
        unfold is_leaf. rewrite H2, H3.
        cbn [SearchProofs.wf] in Hw. destruct Hw as (W1 & W2 & W3 & W4 & W5 & W6).
        destruct (IH (r :: l :: stack) acc) as (res & E & Hp).
        -- constructor; [ | constructor; [ | exact Hs']].
           ++ split; [exists (Some i); exact H7 | split; [exact W6 | ]]. intros j J. apply Hc. cbn. rewrite in_app_iff. auto.
           ++ split; [exists (Some i); exact H6 | split; [exact W5 | ]]. intros j J. apply Hc. cbn. rewrite in_app_iff. auto.
        -- unfold total. cbn [map list_sum fold_right]. cbn [SearchProofs.ids length] in Hf. rewrite app_length in Hf. lia.
        -- cbn [map] in E. exists res. split; [exact E | ]. rewrite Hp. cbn [flat_map]. rewrite !found_in_app.
           unfold stored at 4. cbn [SearchProofs.leaves]. rewrite map_app, found_in_app. fold (stored m l). fold (stored m r). perm.
    + destruct (IH stack acc) as (res & E & Hp).
      * exact Hs'.
      * assert (0 < length (ids s)) by (destruct s; cbn; lia). unfold total, list_sum. lia.
      * exists res. split; [exact E | ]. rewrite (no_hit hit m s Hm Hw Eh). exact Hp.
Qed.

Lemma query_ok hit t ps : monotone hit -> inv t ps -> ps <> [] ->
  exists res, query A hit t = Results res /\ Permutation res (found_in hit ps).
Proof.
  intros Hm (L & Hpool & Hmap & Hroot) Hps. destruct t as [m c n f rt mp]. cbn [t_nodes t_cap t_count t_free t_root t_map] in *.
  destruct rt as [r | ]; [ | contradiction]. destruct Hroot as (s & -> & (H1 & H2 & H3 & H4) & H5).
  unfold query. cbn [t_cap t_root].
  destruct (query_loop_ok hit m c n f (Some (idx s)) mp Hm (S (2 * c)) [s] []) as (res & E & Hp).
  - constructor; [ | constructor]. split; [exists None; exact H1 | ]. split; [exact H2 | ]. intros j J. apply H4, J.
  - unfold total. cbn. rewrite Nat.add_0_r. pose proof (NoDup_bound (ids s) c H3 (fun j J => proj1 (H4 j J))). lia.
  - exists res. split; [exact E | ]. rewrite Hp. apply found_in_perm. cbn [flat_map]. rewrite app_nil_r. exact H5.
Qed.
Lemma query_empty hit t : inv t [] -> query A hit t = QueryUndefined.
Proof.
  intros (L & Hpool & Hmap & Hroot). unfold query. destruct (t_root A t) as [r | ]; [ | reflexivity].
  destruct Hroot as (s & _ & _ & H). apply Permutation_sym, Permutation_nil in H. unfold stored in H. apply map_eq_nil in H.
  exfalso. induction s as [ | i b h l IHl r' IHr]; [discriminate | ]. cbn in H. apply app_eq_nil in H. apply IHl, H.
Qed.

(** Queries with a test that is not monotone: boxes are missed only if they do not satisfy an upward closed property. *)
Section Covers.
Variable hit : box -> bool.
Variable must : box -> Prop.
Hypothesis must_up : forall a b, inside A a b -> must a -> must b.
Hypothesis must_hit : forall b, must b -> hit b = true.
Definition split_as (found missed l : list (nat * box)) : Prop :=
  Permutation (found ++ missed) l /\ Forall (fun e => hit (snd e) = true) found /\ Forall (fun e => ~ must (snd e)) missed.
Lemma no_must m s : wf s -> hit (box_of s) = false -> Forall (fun e => ~ must (snd e)) (stored m s).
Proof.
  intros Hw Hh. assert (Hn : ~ must (box_of s)) by (intros H; rewrite (must_hit _ H) in Hh; discriminate). clear Hh.
  induction s as [i b | i b h l IHl r IHr].
  - unfold stored. cbn in *. constructor; [exact Hn | constructor].
  - cbn [SearchProofs.wf] in Hw. destruct Hw as (H1 & H2 & H3 & H4 & H5 & H6). cbn [SearchProofs.box_of] in Hn.
    unfold stored. cbn [SearchProofs.leaves]. rewrite map_app. apply Forall_app. split.
    + apply IHl; [exact H5 | ]. intros H. apply Hn, (must_up _ _ H2 H).
    + apply IHr; [exact H6 | ]. intros H. apply Hn, (must_up _ _ H3 H).
Qed.
Lemma query_loop_covers m c n f rt mp : forall fuel stack acc,
  Forall (on_stack m c) stack -> total stack < fuel ->
  exists found missed, query_loop A fuel hit (map (fun s => Some (idx s)) stack) acc (Tree A m c n f rt mp) = Results (acc ++ map fst found) /\
    split_as found missed (flat_map (stored m) stack).
Proof.
  induction fuel as [ | fuel IH]; intros stack acc Hs Hf; [lia | ].
  destruct stack as [ | s stack]; cbn [map query_loop].
  - exists [], []. cbn. rewrite app_nil_r. split; [reflexivity | ]. split; [reflexivity | split; constructor].
  - inversion Hs as [ | ? ? ((par & Hrep) & Hw & Hc) Hs']; subst.
    cbn [rdo]. rewrite rd_ok by (apply Hc, idx_ids).
    rewrite (rep_box A m par s Hrep).
    rewrite (proj2 (bad_bounds_valid A _) (wf_valid A _ Hw)).
    unfold total in Hf. cbn [map list_sum fold_right] in Hf.
    cbn [flat_map].
    destruct (hit (box_of s)) eqn:Eh.
    + destruct s as [i b | i b h l r].
      * cbn [SearchProofs.rep SearchProofs.idx] in *. destruct Hrep as (H1 & H2 & H3 & H4 & H5).
        unfold is_leaf. rewrite H2.
        destruct (IH stack (acc ++ [n_part A (m i)])) as (found & missed & E & Hp & F1 & F2); [exact Hs' | cbn in Hf; unfold total, list_sum; lia | ].
        exists ((n_part A (m i), b) :: found), missed. rewrite E. rewrite <- app_assoc. split; [reflexivity | ].
        unfold stored at 1. cbn. cbn in Eh. split; [apply perm_skip, Hp | ]. split; [constructor; assumption | exact F2].
      * cbn [SearchProofs.rep SearchProofs.idx] in *. destruct Hrep as (H1 & H2 & H3 & H4 & H5 & H6 & H7).
        unfold is_leaf. rewrite H2, H3.
        cbn [SearchProofs.wf] in Hw. destruct Hw as (W1 & W2 & W3 & W4 & W5 & W6).
        destruct (IH (r :: l :: stack) acc) as (found & missed & E & Hp & F1 & F2).
        -- constructor; [ | constructor; [ | exact Hs']].
           ++ split; [exists (Some i); exact H7 | split; [exact W6 | ]]. intros j J. apply Hc. cbn. rewrite in_app_iff. auto.
           ++ split; [exists (Some i); exact H6 | split; [exact W5 | ]]. intros j J. apply Hc. cbn. rewrite in_app_iff. auto.
        -- unfold total. cbn [map list_sum fold_right]. cbn [SearchProofs.ids length] in Hf. rewrite app_length in Hf. lia.
        -- cbn [map] in E. exists found, missed. split; [exact E | ]. split; [ | auto]. rewrite Hp. cbn [flat_map].
           unfold stored at 4. cbn [SearchProofs.leaves]. rewrite map_app. fold (stored m l). fold (stored m r). perm.
    + destruct (IH stack acc) as (found & missed & E & Hp & F1 & F2).
      * exact Hs'.
      * assert (0 < length (ids s)) by (destruct s; cbn; lia). unfold total, list_sum. lia.
      * exists found, (stored m s ++ missed). split; [exact E | ]. split; [ | split; [exact F1 | ]].
        -- rewrite <- Hp. perm.
        -- apply Forall_app. split; [apply no_must; assumption | exact F2].
Qed.
Lemma query_covers t ps : inv t ps -> ps <> [] ->
  exists found missed, query A hit t = Results (map fst found) /\ split_as found missed ps.
Proof.
  intros (L & Hpool & Hmap & Hroot) Hps. destruct t as [m c n f rt mp]. cbn [t_nodes t_cap t_count t_free t_root t_map] in *.
  destruct rt as [r | ]; [ | contradiction]. destruct Hroot as (s & -> & (H1 & H2 & H3 & H4) & H5).
  unfold query. cbn [t_cap t_root].
  destruct (query_loop_covers m c n f (Some (idx s)) mp (S (2 * c)) [s] []) as (found & missed & E & Hp & F).
  - constructor; [ | constructor]. split; [exists None; exact H1 | ]. split; [exact H2 | ]. intros j J. apply H4, J.
  - unfold total. cbn. rewrite Nat.add_0_r. pose proof (NoDup_bound (ids s) c H3 (fun j J => proj1 (H4 j J))). lia.
  - exists found, missed. split; [exact E | ]. split; [ | exact F]. rewrite Hp. cbn [flat_map]. rewrite app_nil_r. exact H5.
Qed.
End Covers.

(** The box queries. *)
Lemma overlap_mono q : monotone (overlap A q).
Proof.
  intros a b [(H1 & H2 & H3) (H4 & H5 & H6)] H. unfold overlap in *. rewrite negb_true_iff, !orb_false_iff in *.
  destruct H as (((((K1 & K2) & K3) & K4) & K5) & K6).
  repeat split.
  - exact (le_trans A HA _ _ _ K1 H4).
  - exact (le_trans A HA _ _ _ H1 K2).
  - exact (le_trans A HA _ _ _ K3 H5).
  - exact (le_trans A HA _ _ _ H2 K4).
  - exact (le_trans A HA _ _ _ K5 H6).
  - exact (le_trans A HA _ _ _ H3 K6).
Qed.
End S.
