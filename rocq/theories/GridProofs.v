(** Proofs about the grid indexing model. *)
From Coq Require Import Arith List Lia.
From Verif Require Import GridModel GridSpec.
Import ListNotations.

Lemma c3_eq c c' : cx c = cx c' -> cy c = cy c' -> cz c = cz c' -> c = c'.
Proof. destruct c, c'; simpl; intros; subst; reflexivity. Qed.

Lemma divmod_unique a b q r : r < b -> a = q * b + r -> a / b = q /\ a mod b = r.
Proof.
  intros Hr ->. split.
  - rewrite Nat.div_add_l by lia. rewrite Nat.div_small by lia. lia.
  - rewrite Nat.add_comm, Nat.mod_add by lia. apply Nat.mod_small; lia.
Qed.

(** ** C01 *)
Lemma mat_of_vec_of g c : in_grid g c -> mat_of g (vec_of g c) = c.
Proof.
  destruct c as [x y z]; unfold in_grid, mat_of, vec_of; cbn [cx cy cz]; intros (Hx & Hy & Hz).
  assert (Hr : y * nx g + x < nx g * ny g) by nia.
  destruct (divmod_unique (z * (ny g * nx g) + y * nx g + x) (nx g * ny g) z (y * nx g + x)) as [E1 E2];
    [assumption | nia |].
  rewrite E1, E2.
  destruct (divmod_unique (y * nx g + x) (nx g) y x) as [E3 E4]; [assumption | reflexivity |].
  rewrite E3, E4; reflexivity.
Qed.

Lemma vec_of_bound g c : in_grid g c -> vec_of g c < num_elements g.
Proof.
  destruct c as [x y z]; unfold in_grid, vec_of, num_elements; cbn [cx cy cz]; intros (Hx & Hy & Hz).
  assert (y * nx g + x < nx g * ny g) by nia.
  assert (z * (ny g * nx g) + ny g * nx g <= nx g * ny g * nz g) by nia. nia.
Qed.

Lemma mat_of_in_grid g i : grid_ok g -> i < num_elements g -> in_grid g (mat_of g i).
Proof.
  intros (Hx & Hy & Hz) Hi; unfold in_grid, mat_of, num_elements in *; cbn [cx cy cz].
  assert (Hxy : 0 < nx g * ny g) by nia.
  pose proof (Nat.mod_upper_bound i (nx g * ny g)) as Hm.
  repeat split.
  - apply Nat.mod_upper_bound; lia.
  - apply Nat.div_lt_upper_bound; lia.
  - apply Nat.div_lt_upper_bound; lia.
Qed.

Lemma vec_of_mat_of g i : grid_ok g -> vec_of g (mat_of g i) = i.
Proof.
  intros (Hx & Hy & Hz); unfold mat_of, vec_of; cbn [cx cy cz].
  assert (Hxy : nx g * ny g <> 0) by nia.
  pose proof (Nat.div_mod i (nx g * ny g) Hxy) as E1.
  pose proof (Nat.div_mod (i mod (nx g * ny g)) (nx g) ltac:(lia)) as E2.
  nia.
Qed.

Lemma vec_of_inj g c c' : in_grid g c -> in_grid g c' -> vec_of g c = vec_of g c' -> c = c'.
Proof.
  intros H H' E. rewrite <- (mat_of_vec_of g c H), <- (mat_of_vec_of g c' H'), E; reflexivity.
Qed.

Lemma in_box_in_grid g p c : part_ok g p -> in_box p c -> in_grid g c.
Proof. unfold part_ok, in_box, in_grid; intuition lia. Qed.

Lemma global_part_ok g : grid_ok g -> part_ok g (global_part g).
Proof. unfold grid_ok, part_ok, in_grid, global_part; simpl; lia. Qed.

Lemma in_box_global g c : grid_ok g -> (in_box (global_part g) c <-> in_grid g c).
Proof. unfold grid_ok, in_box, in_grid, global_part; simpl; lia. Qed.

(** ** Coordinate level stepping *)
Definition stepc (d : dir) (p : part) (c : c3) : c3 * info :=
  match d with
  | XF => if cx c <? cx (psecond p) then (C3 (cx c + 1) (cy c) (cz c), Middle)
          else if cy c <? cy (psecond p) then (C3 (cx (pfirst p)) (cy c + 1) (cz c), LocalEnd)
          else if cz c <? cz (psecond p) then (C3 (cx (pfirst p)) (cy (pfirst p)) (cz c + 1), LocalEnd)
          else (c, GlobalEnd)
  | YF => if cy c <? cy (psecond p) then (C3 (cx c) (cy c + 1) (cz c), Middle)
          else if cx c <? cx (psecond p) then (C3 (cx c + 1) (cy (pfirst p)) (cz c), LocalEnd)
          else if cz c <? cz (psecond p) then (C3 (cx (pfirst p)) (cy (pfirst p)) (cz c + 1), LocalEnd)
          else (c, GlobalEnd)
  | ZF => if cz c <? cz (psecond p) then (C3 (cx c) (cy c) (cz c + 1), Middle)
          else if cx c <? cx (psecond p) then (C3 (cx c + 1) (cy c) (cz (pfirst p)), LocalEnd)
          else if cy c <? cy (psecond p) then (C3 (cx (pfirst p)) (cy c + 1) (cz (pfirst p)), LocalEnd)
          else (c, GlobalEnd)
  | XB => if cx (pfirst p) <? cx c then (C3 (cx c - 1) (cy c) (cz c), Middle)
          else if cy (pfirst p) <? cy c then (C3 (cx (psecond p)) (cy c - 1) (cz c), LocalEnd)
          else if cz (pfirst p) <? cz c then (C3 (cx (psecond p)) (cy (psecond p)) (cz c - 1), LocalEnd)
          else (c, GlobalEnd)
  | YB => if cy (pfirst p) <? cy c then (C3 (cx c) (cy c - 1) (cz c), Middle)
          else if cx (pfirst p) <? cx c then (C3 (cx c - 1) (cy (psecond p)) (cz c), LocalEnd)
          else if cz (pfirst p) <? cz c then (C3 (cx (psecond p)) (cy (psecond p)) (cz c - 1), LocalEnd)
          else (c, GlobalEnd)
  | ZB => if cz (pfirst p) <? cz c then (C3 (cx c) (cy c) (cz c - 1), Middle)
          else if cx (pfirst p) <? cx c then (C3 (cx c - 1) (cy c) (cz (psecond p)), LocalEnd)
          else if cy (pfirst p) <? cy c then (C3 (cx (psecond p)) (cy c - 1) (cz (psecond p)), LocalEnd)
          else (c, GlobalEnd)
  end.

Lemma next_index_stepc g d p c : in_grid g c ->
  next_index g (vec_of g c) d p = (vec_of g (fst (stepc d p c)), snd (stepc d p c)).
Proof.
  intros H; unfold next_index, next_x, next_y, next_z, prev_x, prev_y, prev_z, stepc.
  rewrite (mat_of_vec_of g c H).
  destruct d; cbv zeta; destruct (_ <? _); try reflexivity; destruct (_ <? _); try reflexivity;
    destruct (_ <? _); reflexivity.
Qed.

Lemma stepc_in_box g d p c : part_ok g p -> in_box p c -> in_box p (fst (stepc d p c)).
Proof.
  unfold part_ok, in_box, stepc; intros Hp Hc.
  destruct d; destruct (Nat.ltb_spec (cx c) (cx (psecond p))); destruct (Nat.ltb_spec (cy c) (cy (psecond p)));
    destruct (Nat.ltb_spec (cz c) (cz (psecond p)));
    destruct (Nat.ltb_spec (cx (pfirst p)) (cx c)); destruct (Nat.ltb_spec (cy (pfirst p)) (cy c));
    destruct (Nat.ltb_spec (cz (pfirst p)) (cz c)); cbn [fst cx cy cz]; lia.
Qed.

(** local coordinates along the traversal order: (inner, middle, outer) *)
Definition loc (d : dir) (p : part) (c : c3) : nat * nat * nat :=
  match d with
  | XF => (cx c - cx (pfirst p), cy c - cy (pfirst p), cz c - cz (pfirst p))
  | YF => (cy c - cy (pfirst p), cx c - cx (pfirst p), cz c - cz (pfirst p))
  | ZF => (cz c - cz (pfirst p), cx c - cx (pfirst p), cy c - cy (pfirst p))
  | XB => (cx (psecond p) - cx c, cy (psecond p) - cy c, cz (psecond p) - cz c)
  | YB => (cy (psecond p) - cy c, cx (psecond p) - cx c, cz (psecond p) - cz c)
  | ZB => (cz (psecond p) - cz c, cx (psecond p) - cx c, cy (psecond p) - cy c)
  end.
Definition ext (d : dir) (p : part) : nat * nat * nat :=
  let ex := cx (psecond p) - cx (pfirst p) + 1 in
  let ey := cy (psecond p) - cy (pfirst p) + 1 in
  let ez := cz (psecond p) - cz (pfirst p) + 1 in
  match d with
  | XF | XB => (ex, ey, ez)
  | YF | YB => (ey, ex, ez)
  | ZF | ZB => (ez, ex, ey)
  end.
Definition lstep (e a : nat * nat * nat) : (nat * nat * nat) * info :=
  let '(la, lb, lc) := e in let '(x, y, z) := a in
  if S x <? la then ((S x, y, z), Middle)
  else if S y <? lb then ((0, S y, z), LocalEnd)
  else if S z <? lc then ((0, 0, S z), LocalEnd)
  else (a, GlobalEnd).

Lemma stepc_loc g d p c : part_ok g p -> in_box p c ->
  (loc d p (fst (stepc d p c)), snd (stepc d p c)) = lstep (ext d p) (loc d p c).
Proof.
  unfold part_ok, in_box, stepc, lstep, loc, ext; intros Hp Hc.
  destruct d;
    repeat match goal with |- context [Nat.ltb ?a ?b] => destruct (Nat.ltb_spec a b) end;
    cbn [fst snd cx cy cz]; try lia;
    repeat (match goal with
            | |- (_, _) = (_, _) => f_equal
            end); lia.
Qed.

Definition rank (e a : nat * nat * nat) : nat :=
  let '(la, lb, lc) := e in let '(x, y, z) := a in (z * lb + y) * la + x.
Definition lvalid (e a : nat * nat * nat) : Prop :=
  let '(la, lb, lc) := e in let '(x, y, z) := a in x < la /\ y < lb /\ z < lc.
Definition lsize (e : nat * nat * nat) : nat := let '(la, lb, lc) := e in la * lb * lc.

Lemma rank_inj e a b : lvalid e a -> lvalid e b -> rank e a = rank e b -> a = b.
Proof.
  destruct e as [[la lb] lc], a as [[x y] z], b as [[x' y'] z']; simpl.
  intros (Hx & Hy & Hz) (Hx' & Hy' & Hz') E.
  assert (z * lb + y = z' * lb + y') as E1.
  { destruct (divmod_unique ((z * lb + y) * la + x) la _ x Hx eq_refl) as [D1 _].
    destruct (divmod_unique ((z' * lb + y') * la + x') la _ x' Hx' eq_refl) as [D2 _]. congruence. }
  assert (x = x') by nia. 
  assert (z = z') as E2.
  { destruct (divmod_unique (z * lb + y) lb _ y Hy eq_refl) as [D1 _].
    destruct (divmod_unique (z' * lb + y') lb _ y' Hy' eq_refl) as [D2 _]. congruence. }
  assert (y = y') by nia. subst; reflexivity.
Qed.

Lemma rank_bound e a : lvalid e a -> rank e a < lsize e.
Proof.
  destruct e as [[la lb] lc], a as [[x y] z]; simpl; intros (Hx & Hy & Hz).
  assert (z * lb + y < lb * lc) by nia.
  assert ((z * lb + y) * la + la <= la * (lb * lc)) by nia. nia.
Qed.

Lemma lstep_rank e a : lvalid e a ->
  (snd (lstep e a) <> GlobalEnd -> rank e (fst (lstep e a)) = S (rank e a) /\ lvalid e (fst (lstep e a))) /\
  (snd (lstep e a) = GlobalEnd <-> S (rank e a) = lsize e).
Proof.
  destruct e as [[la lb] lc], a as [[x y] z]; simpl; intros (Hx & Hy & Hz).
  assert (z * lb + y < lb * lc) by nia.
  destruct (Nat.ltb_spec (S x) la); [| destruct (Nat.ltb_spec (S y) lb); [| destruct (Nat.ltb_spec (S z) lc)]]; simpl.
  - split; [intros _; lia |]. split; [discriminate|]. intros E; exfalso. 
    assert ((z * lb + y) * la + la <= la * (lb * lc)) by nia. nia.
  - assert (la = S x) by lia; subst la. split; [intros _; nia |]. split; [discriminate|]. intros E; exfalso.
    assert (z * lb + lb <= lb * lc) by nia.
    assert (S (z * lb + y) * S x < lb * lc * S x) by nia. nia.
  - assert (la = S x) by lia; subst la. assert (lb = S y) by lia; subst lb.
    split; [intros _; nia |]. split; [discriminate|]. intros E; exfalso.
    assert (S z * S y < S y * lc) by nia.
    assert (S z * S y * S x < S y * lc * S x) by nia. nia.
  - assert (la = S x) by lia; subst la. assert (lb = S y) by lia; subst lb. assert (lc = S z) by lia; subst lc.
    split; [intros N; exfalso; apply N; reflexivity|]. split; [intros _; nia | reflexivity].
Qed.

Lemma loc_valid g d p c : part_ok g p -> in_box p c -> lvalid (ext d p) (loc d p c).
Proof. unfold part_ok, in_box, lvalid, ext, loc; destruct d; lia. Qed.

Lemma loc_inj d p c c' : in_box p c -> in_box p c' -> loc d p c = loc d p c' -> c = c'.
Proof.
  unfold in_box, loc; destruct c, c'; simpl; intros H H' E; destruct d; injection E; intros; f_equal; lia.
Qed.

Lemma lsize_ext d p : lsize (ext d p) = box_size p.
Proof. unfold box_size; destruct d; simpl; lia. Qed.

Lemma walk_spec g d p : part_ok g p -> forall fuel c, in_box p c ->
  box_size p - rank (ext d p) (loc d p c) <= fuel ->
  exists l, walk g d p fuel (vec_of g c) = Some (map (vec_of g) l) /\
            Forall (in_box p) l /\
            map (fun c' => rank (ext d p) (loc d p c')) l =
            seq (rank (ext d p) (loc d p c)) (box_size p - rank (ext d p) (loc d p c)).
Proof.
  intros Hp. induction fuel as [|fuel IH]; intros c Hc Hf.
  - exfalso. pose proof (rank_bound _ _ (loc_valid g d p c Hp Hc)). rewrite lsize_ext in *. lia.
  - simpl walk. rewrite next_index_stepc by (eapply in_box_in_grid; eauto).
    pose proof (rank_bound _ _ (loc_valid g d p c Hp Hc)) as Hb. rewrite lsize_ext in Hb.
    pose proof (stepc_loc g d p c Hp Hc) as E.
    destruct (lstep_rank _ _ (loc_valid g d p c Hp Hc)) as [H1 H2]. rewrite lsize_ext in H2.
    rewrite <- E in H1, H2. cbn [fst snd] in *.
    destruct (snd (stepc d p c)) eqn:Ei.
    + destruct H1 as [H1 _]; [discriminate|].
      destruct (IH (fst (stepc d p c))) as (l & W & F & R); [eapply stepc_in_box; eauto | lia |].
      exists (c :: l). rewrite W. repeat split; [constructor; assumption |].
      simpl. rewrite R, H1.
      destruct (box_size p - rank (ext d p) (loc d p c)) as [|k] eqn:Ek; [lia|].
      simpl. f_equal. f_equal. lia.
    + destruct H1 as [H1 _]; [discriminate|].
      destruct (IH (fst (stepc d p c))) as (l & W & F & R); [eapply stepc_in_box; eauto | lia |].
      exists (c :: l). rewrite W. repeat split; [constructor; assumption |].
      simpl. rewrite R, H1.
      destruct (box_size p - rank (ext d p) (loc d p c)) as [|k] eqn:Ek; [lia|].
      simpl. f_equal. f_equal. lia.
    + destruct H2 as [H2 _]. specialize (H2 eq_refl).
      exists [c]. split; [reflexivity|]. split; [constructor; [assumption|constructor]|].
      simpl. replace (box_size p - rank (ext d p) (loc d p c)) with 1 by lia. reflexivity.
Qed.

Lemma first_cell_in_box g d p : part_ok g p -> in_box p (first_cell d p).
Proof. unfold part_ok, in_box, first_cell; destruct d; lia. Qed.

Lemma first_cell_rank d p : rank (ext d p) (loc d p (first_cell d p)) = 0.
Proof. unfold first_cell; destruct d; simpl; rewrite ?Nat.sub_diag; lia. Qed.

Lemma NoDup_map_iff_inj {A B} (f : A -> B) l : NoDup (map f l) -> NoDup l.
Proof. apply NoDup_map_inv. Qed.

Lemma traversal g d p : part_ok g p ->
  exists l, walk g d p (box_size p) (vec_of g (first_cell d p)) = Some l /\
            NoDup l /\
            (forall c, in_grid g c -> (In (vec_of g c) l <-> in_box p c)) /\
            (forall i, In i l -> exists c, in_box p c /\ i = vec_of g c).
Proof.
  intros Hp.
  destruct (walk_spec g d p Hp (box_size p) (first_cell d p)) as (l & W & F & R).
  { eapply first_cell_in_box; eauto. } { lia. }
  rewrite first_cell_rank, Nat.sub_0_r in R.
  exists (map (vec_of g) l). split; [|split; [|split]].
  - exact W.
  - assert (N : NoDup l). { apply (NoDup_map_inv (fun c' => rank (ext d p) (loc d p c'))). rewrite R. apply seq_NoDup. }
    clear R W. induction l as [|c l IH]; simpl; constructor.
    + rewrite in_map_iff. intros (c' & E & Hin). inversion N; subst. inversion F; subst.
      rewrite Forall_forall in *.
      assert (c' = c) by (eapply vec_of_inj; eauto using in_box_in_grid). congruence.
    + inversion N; inversion F; subst; auto.
  - intros c Hg. split.
    { rewrite in_map_iff. intros (c' & E & Hin). rewrite Forall_forall in F.
      assert (c' = c) by (eapply vec_of_inj; eauto using in_box_in_grid). subst; auto. }
    intros Hc. assert (In (rank (ext d p) (loc d p c)) (map (fun c' => rank (ext d p) (loc d p c')) l)) as Hin.
    { rewrite R, in_seq. pose proof (rank_bound _ _ (loc_valid g d p c Hp Hc)) as Hb. rewrite lsize_ext in Hb. lia. }
    rewrite in_map_iff in Hin. destruct Hin as (c' & E & Hin). rewrite Forall_forall in F.
    assert (c' = c).
    { eapply (loc_inj d p); eauto. eapply rank_inj; eauto using loc_valid. }
    subst. apply in_map; assumption.
  - intros i Hi. rewrite in_map_iff in Hi. destruct Hi as (c' & E & Hin). rewrite Forall_forall in F. eauto.
Qed.

(** ** what a step does *)
Lemma step_middle_iff g d p c j : part_ok g p -> in_box p c ->
  (next_index g (vec_of g c) d p = (j, Middle) <-> exists c', face_nb d c c' /\ in_box p c' /\ j = vec_of g c').
Proof.
  intros Hp Hc. rewrite next_index_stepc by (eapply in_box_in_grid; eauto).
  unfold part_ok, in_grid, in_box, stepc, face_nb in *. split.
  - intros E. injection E as E1 E2. subst j. eexists. split; [| split; [| reflexivity]];
    destruct d; repeat match goal with |- context [Nat.ltb ?a ?b] => destruct (Nat.ltb_spec a b) end;
      repeat match goal with H : context [Nat.ltb ?a ?b] |- _ => destruct (Nat.ltb_spec a b) end;
      cbn [fst snd cx cy cz] in *; try discriminate; lia.
  - intros (c' & H1 & H2 & ->).
    assert (c' = match d with XF => C3 (cx c + 1) (cy c) (cz c) | XB => C3 (cx c - 1) (cy c) (cz c)
                 | YF => C3 (cx c) (cy c + 1) (cz c) | YB => C3 (cx c) (cy c - 1) (cz c)
                 | ZF => C3 (cx c) (cy c) (cz c + 1) | ZB => C3 (cx c) (cy c) (cz c - 1) end) as ->.
    { apply c3_eq; destruct d; simpl; lia. }
    destruct d; repeat match goal with |- context [Nat.ltb ?a ?b] => destruct (Nat.ltb_spec a b) end;
      cbn [fst snd cx cy cz] in *; try reflexivity; lia.
Qed.

Lemma step_result_in_box g d p c j f : part_ok g p -> in_box p c ->
  next_index g (vec_of g c) d p = (j, f) -> exists c', in_box p c' /\ j = vec_of g c'.
Proof.
  intros Hp Hc. rewrite next_index_stepc by (eapply in_box_in_grid; eauto).
  intros E; injection E as <- <-. eexists; split; [eapply stepc_in_box; eauto | reflexivity].
Qed.

Lemma stepc_global_end g d p c : part_ok g p -> in_box p c -> snd (stepc d p c) = GlobalEnd -> fst (stepc d p c) = c.
Proof.
  unfold stepc; intros _ _.
  destruct d; repeat match goal with |- context [Nat.ltb ?a ?b] => destruct (Nat.ltb_spec a b) end;
      cbn [fst snd]; try discriminate; reflexivity.
Qed.

Lemma step_reverse g d p c j f : part_ok g p -> in_box p c ->
  next_index g (vec_of g c) d p = (j, f) -> f <> GlobalEnd ->
  next_index g j (reverse_dir d) p = (vec_of g c, f).
Proof.
  intros Hp Hc. rewrite next_index_stepc by (eapply in_box_in_grid; eauto).
  intros E Hf; injection E as <- <-.
  pose proof (stepc_in_box g d p c Hp Hc) as Hc'.
  rewrite next_index_stepc by (eapply in_box_in_grid; eauto).
  assert (stepc (reverse_dir d) p (fst (stepc d p c)) = (c, snd (stepc d p c))) as ->; [| reflexivity].
  clear Hc'. unfold part_ok, in_grid, in_box, stepc in *. destruct c as [x y z].
  destruct d; cbn [reverse_dir cx cy cz fst snd] in *;
    repeat match goal with H : context [if Nat.ltb ?a ?b then _ else _] |- _ => destruct (Nat.ltb_spec a b) end;
    cbn [cx cy cz fst snd] in *; try (exfalso; apply Hf; reflexivity);
    repeat match goal with |- context [Nat.ltb ?a ?b] => destruct (Nat.ltb_spec a b) end;
    try lia; f_equal; f_equal; lia.
Qed.

Lemma is_end_spec g d p c : part_ok g p -> in_box p c ->
  (is_end g (vec_of g c) d p = true <-> snd (next_index g (vec_of g c) d p) <> Middle).
Proof.
  intros Hp Hc. rewrite next_index_stepc by (eapply in_box_in_grid; eauto).
  unfold is_end. rewrite mat_of_vec_of by (eapply in_box_in_grid; eauto).
  unfold part_ok, in_box, stepc in *; cbn [snd].
  destruct d; rewrite Nat.eqb_eq; repeat match goal with |- context [Nat.ltb ?a ?b] => destruct (Nat.ltb_spec a b) end;
    cbn [snd]; split; try lia; try (intros; discriminate); intros H'; exfalso; apply H'; reflexivity.
Qed.

Lemma reverse_involutive d : reverse_dir (reverse_dir d) = d.
Proof. destruct d; reflexivity. Qed.

Lemma is_end_no_nb g d p c : part_ok g p -> in_box p c ->
  (is_end g (vec_of g c) d p = true <-> forall c', face_nb d c c' -> ~ in_box p c').
Proof.
  intros Hp Hc. rewrite (is_end_spec g d p c Hp Hc).
  pose proof (fun j => step_middle_iff g d p c j Hp Hc) as M.
  split.
  - intros H c' Hn Hi. apply H. rewrite (proj2 (M (vec_of g c'))); [reflexivity|]. exists c'; auto.
  - intros H E. destruct (next_index g (vec_of g c) d p) as [j f] eqn:En; simpl in E; subst f.
    destruct (proj1 (M j) eq_refl) as (c' & Hn & Hi & _). exact (H c' Hn Hi).
Qed.
