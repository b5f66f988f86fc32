(** Proofs about the triangle mesh container. *)
From Coq Require Import Arith List Bool Lia Permutation.
From Verif Require Import MeshModel.
Import ListNotations.

(** Well-formed meshes: specification. *)
Definition index_ok (n : nat) (t : itri) : Prop := let '(i, j, k) := t in i < n /\ j < n /\ k < n.
Definition well_formed {V} (m : mesh V) : Prop :=
  length (m_normals m) = length (m_triangles m) /\ Forall (index_ok (length (m_vertices m))) (m_triangles m).

Section Mesh.
Context {V : Type}.
Implicit Types m : mesh V.

Lemma check_iff m : check m = true <-> well_formed m.
Proof.
  unfold check, well_formed. rewrite andb_true_iff, Nat.eqb_eq, forallb_forall, Forall_forall.
  split; intros [H1 H2]; (split; [lia|]); intros t I; specialize (H2 t I); destruct t as [[i j] k]; unfold index_ok in *.
  - rewrite !andb_true_iff, !Nat.ltb_lt in H2. lia.
  - rewrite !andb_true_iff, !Nat.ltb_lt. lia.
Qed.

(** *** Visiting *)

Lemma visit_list_some {A} (get : nat -> option A) l r : visit_list get l = Some r <->
  length r = length l /\ forall i a, nth_error l i = Some a -> nth_error r i = get a /\ get a <> None.
Proof.
  revert r. induction l as [|x l IH]; intros r; cbn [visit_list].
  - split; [intros H; injection H as <-; split; [reflexivity|]; intros [|i] a; discriminate|].
    intros [L _]. destruct r; [reflexivity | discriminate].
  - destruct (get x) as [y|] eqn:G.
    + destruct (visit_list get l) as [r'|] eqn:R; cbn [option_map].
      * split.
        -- intros H. injection H as <-. destruct (proj1 (IH r') eq_refl) as [L F]. split; [cbn; lia|].
           intros [|i] a E; cbn [nth_error] in *; [injection E as <-; rewrite G; split; congruence | auto].
        -- intros [L F]. destruct r as [|z r]; [discriminate|]. destruct (F 0 x eq_refl) as [H _]. cbn in H.
           rewrite G in H. injection H as ->. assert (R2 : Some r' = Some r); [|injection R2 as ->; reflexivity].
           apply IH. split; [cbn in L; lia|]. intros i a E. exact (F (S i) a E).
      * split; [discriminate|]. intros [L F]. exfalso. destruct r as [|z r]; [discriminate|].
        assert (R2 : None = Some r); [|discriminate].
        apply IH. split; [cbn in L; lia|]. intros i a E. exact (F (S i) a E).
    + split; [discriminate|]. intros [L F]. destruct (F 0 x eq_refl) as [_ N]. congruence.
Qed.
Lemma nth_error_seq n i a : nth_error (seq 0 n) i = Some a <-> i < n /\ a = i.
Proof.
  split.
  - intros H. assert (L : i < n) by (rewrite <- (seq_length n 0); apply nth_error_Some; congruence). split; [exact L|].
    apply nth_error_nth with (d := 0) in H. rewrite seq_nth in H by exact L. lia.
  - intros [L ->]. rewrite (nth_error_nth' _ 0) by (rewrite seq_length; exact L). rewrite seq_nth by exact L. reflexivity.
Qed.
Lemma visit_seq {A} (get : nat -> option A) n r : visit_list get (seq 0 n) = Some r <->
  length r = n /\ forall i, i < n -> nth_error r i = get i.
Proof.
  rewrite visit_list_some, seq_length. split; intros [L F]; (split; [exact L|]).
  - intros i I. apply (F i i). apply nth_error_seq. auto.
  - intros i a E. apply nth_error_seq in E as [I ->]. rewrite <- F by exact I. split; [reflexivity|].
    apply nth_error_Some. lia.
Qed.
Lemma visit_exists {A} (get : nat -> option A) n : (forall i, i < n -> get i <> None) -> exists r, visit_list get (seq 0 n) = Some r.
Proof.
  intros H. assert (G : forall l, (forall i, In i l -> get i <> None) -> exists r, visit_list get l = Some r).
  { induction l as [|x l IH]; intros N; cbn [visit_list]; [eauto|].
    destruct (get x) as [y|] eqn:E; [|exfalso; apply (N x); [left; reflexivity | exact E]].
    destruct IH as [r ->]; [intros i I; apply N; right; exact I|]. cbn. eauto. }
  apply G. intros i I. apply in_seq in I. apply H. lia.
Qed.

Lemma corners_ok (vs : list V) t : index_ok (length vs) t <-> corners vs t <> None.
Proof.
  destruct t as [[i j] k]. unfold index_ok, corners. rewrite <- !nth_error_Some.
  destruct (nth_error vs i), (nth_error vs j), (nth_error vs k); split; intros H; try tauto; try congruence;
    try (destruct H as [H1 [H2 H3]]; congruence); repeat split; congruence.
Qed.
Lemma triangle_ok m i : well_formed m -> i < num_triangles m -> triangle m i <> None.
Proof.
  intros [_ W] I. unfold triangle. destruct (nth_error (m_triangles m) i) as [t|] eqn:E.
  - apply corners_ok. rewrite Forall_forall in W. apply W, nth_error_In with (n := i), E.
  - apply nth_error_None in E. unfold num_triangles in I. lia.
Qed.
Lemma triangle_n_ok m i : well_formed m -> i < num_triangles m -> triangle_n m i <> None.
Proof.
  intros W I. unfold triangle_n. assert (T := triangle_ok m i W I). destruct (triangle m i); [|congruence].
  destruct (nth_error (m_normals m) i) eqn:E; [discriminate|]. apply nth_error_None in E. destruct W as [L _].
  unfold num_triangles in I. lia.
Qed.
Lemma visit_wf m : well_formed m -> exists l, visit m = Some l.
Proof. intros W. apply visit_exists. intros i I. apply triangle_ok; assumption. Qed.
Lemma visit_n_wf m : well_formed m -> exists l, visit_n m = Some l.
Proof. intros W. apply visit_exists. intros i I. apply triangle_n_ok; assumption. Qed.
(** The triangles without and with normals are the same. *)
Lemma visit_fst m l : visit_n m = Some l -> visit m = Some (map fst l).
Proof.
  unfold visit_n, visit. rewrite !visit_seq. intros [L F]. split; [rewrite map_length; exact L|].
  intros i I. rewrite nth_error_map, F by exact I. specialize (F i I). unfold triangle_n in *.
  destruct (triangle m i) as [t|]; [destruct (nth_error (m_normals m) i); [reflexivity|]|].
  - exfalso. apply nth_error_None in F. lia.
  - exfalso. apply nth_error_None in F. lia.
Qed.

(** *** Removing *)

Lemma set_nth_app {A} (l1 : list A) x l2 a : set_nth (length l1) a (l1 ++ x :: l2) = Some (l1 ++ a :: l2).
Proof. induction l1 as [|y l1 IH]; cbn; [reflexivity|]. rewrite IH. reflexivity. Qed.
Lemma set_nth_none {A} (l : list A) i a : length l <= i -> set_nth i a l = None.
Proof. revert i. induction l as [|x l IH]; intros [|i] L; cbn in *; try reflexivity; try lia. rewrite IH by lia. reflexivity. Qed.
Lemma back_app {A} (l : list A) a : back (l ++ [a]) = Some a.
Proof. unfold back. rewrite app_length. cbn. replace (length l + 1 - 1) with (length l) by lia. rewrite nth_error_app2, Nat.sub_diag by lia. reflexivity. Qed.
Lemma back_nil {A} : back (@nil A) = None. Proof. reflexivity. Qed.

Lemma swap_pop_shape {A} (l : list A) i : i < length l ->
  (exists l1 x, l = l1 ++ [x] /\ length l1 = i /\ swap_pop i l = Some l1) \/
  (exists l1 x l2 y, l = l1 ++ x :: l2 ++ [y] /\ length l1 = i /\ swap_pop i l = Some (l1 ++ y :: l2)).
Proof.
  intros I. destruct (nth_error l i) as [x|] eqn:E; [|apply nth_error_None in E; lia].
  apply nth_error_split in E as [l1 [r [E L]]]. subst l i. destruct (rev r) as [|y s] eqn:R.
  - left. exists l1, x. assert (r = []) as -> by (rewrite <- (rev_involutive r), R; reflexivity).
    split; [reflexivity|]. split; [reflexivity|].
    unfold swap_pop. rewrite back_app, set_nth_app. cbn [option_map]. rewrite removelast_last. reflexivity.
  - right. assert (r = rev s ++ [y]) as -> by (rewrite <- (rev_involutive r), R; reflexivity).
    exists l1, x, (rev s), y. split; [reflexivity|]. split; [reflexivity|].
    unfold swap_pop. replace (l1 ++ x :: rev s ++ [y]) with ((l1 ++ x :: rev s) ++ [y]) by (rewrite <- app_assoc; reflexivity).
    rewrite back_app. replace ((l1 ++ x :: rev s) ++ [y]) with (l1 ++ x :: rev s ++ [y]) by (rewrite <- app_assoc; reflexivity).
    rewrite set_nth_app. cbn [option_map]. replace (l1 ++ y :: rev s ++ [y]) with ((l1 ++ y :: rev s) ++ [y]) by (rewrite <- app_assoc; reflexivity).
    rewrite removelast_last. reflexivity.
Qed.
Lemma swap_pop_spec {A} (l : list A) i : i < length l -> exists l', swap_pop i l = Some l' /\
  S (length l') = length l /\
  (forall j, j < length l' -> nth_error l' j = if j =? i then nth_error l (length l - 1) else nth_error l j) /\
  (forall x, nth_error l i = Some x -> Permutation l (x :: l')).
Proof.
  intros I. destruct (swap_pop_shape l i I) as [[l1 [x [-> [L E]]]] | [l1 [x [l2 [y [-> [L E]]]]]]]; eexists; (split; [exact E|]).
  - rewrite !app_length in *. cbn [length] in *. split; [lia|]. split.
    + intros j J. destruct (Nat.eqb_spec j i); [lia|]. rewrite nth_error_app1 by lia. reflexivity.
    + intros z Z. rewrite nth_error_app2 in Z by lia. rewrite L, Nat.sub_diag in Z. injection Z as <-.
      rewrite Permutation_app_comm. reflexivity.
  - rewrite !app_length in *. cbn [length] in *. rewrite app_length in *. cbn [length] in *. split; [lia|]. split.
    + intros j J. destruct (Nat.eqb_spec j i) as [->|N].
      * rewrite nth_error_app2, <- L, Nat.sub_diag by lia. cbn.
        replace (length l1 + S (length l2 + 1) - 1) with (length (l1 ++ x :: l2)) by (rewrite app_length; cbn; lia).
        replace (l1 ++ x :: l2 ++ [y]) with ((l1 ++ x :: l2) ++ [y]) by (rewrite <- app_assoc; reflexivity).
        rewrite nth_error_app2, Nat.sub_diag by lia. reflexivity.
      * destruct (lt_dec j (length l1)); [rewrite !nth_error_app1 by lia; reflexivity|].
        rewrite !nth_error_app2 by lia. destruct (j - length l1) as [|q] eqn:Q; [lia|]. cbn.
        rewrite nth_error_app1 by lia. reflexivity.
    + intros z Z. rewrite nth_error_app2 in Z by lia. rewrite L, Nat.sub_diag in Z. injection Z as <-.
      rewrite <- Permutation_middle. constructor. rewrite app_assoc, (Permutation_app_comm (l1 ++ l2)). cbn.
      rewrite Permutation_middle. reflexivity.
Qed.

Lemma triangle_out m i : num_triangles m <= i -> triangle m i = None.
Proof. intros H. unfold triangle. apply nth_error_None in H. rewrite H. reflexivity. Qed.

Lemma remove_ok m tid : well_formed m -> tid < num_triangles m -> exists m',
  remove_triangle m tid = Some m' /\ m_vertices m' = m_vertices m /\ well_formed m' /\
  S (num_triangles m') = num_triangles m /\
  (forall j, j < num_triangles m' -> triangle_n m' j = if j =? tid then triangle_n m (num_triangles m - 1) else triangle_n m j).
Proof.
  intros [L W] T. destruct (swap_pop_spec (m_triangles m) tid T) as [ts [Et [Lt [Nt Pt]]]].
  assert (T2 : tid < length (m_normals m)) by (rewrite L; exact T).
  destruct (swap_pop_spec (m_normals m) tid T2) as [ns [En [Ln [Nn Pn]]]].
  exists (Mesh (m_vertices m) ts ns). unfold remove_triangle. rewrite Et, En. split; [reflexivity|]. split; [reflexivity|].
  unfold num_triangles, well_formed in *. cbn [m_vertices m_triangles m_normals] in *. split.
  - split; [lia|]. rewrite Forall_forall in *. intros t I. apply W.
    destruct (nth_error (m_triangles m) tid) as [x|] eqn:X; [|apply nth_error_None in X; lia].
    apply (Permutation_in t (Permutation_sym (Pt x eq_refl))). right. exact I.
  - split; [lia|]. intros j J. unfold triangle_n, triangle. cbn [m_vertices m_triangles m_normals].
    rewrite Nt, Nn by lia. rewrite L. destruct (j =? tid); reflexivity.
Qed.
Lemma nth_error_ext' {A} (l l' : list A) : length l = length l' -> (forall i, i < length l -> nth_error l i = nth_error l' i) -> l = l'.
Proof.
  revert l'. induction l as [|x l IH]; intros [|y l'] L H; try discriminate; [reflexivity|].
  assert (E := H 0 (Nat.lt_0_succ _)). injection E as ->. f_equal. apply IH; [cbn in L; lia|].
  intros i I. apply (H (S i)). cbn. lia.
Qed.
Lemma remove_exact m tid l q : well_formed m -> visit_n m = Some l -> nth_error l tid = Some q -> exists m' l',
  remove_triangle m tid = Some m' /\ m_vertices m' = m_vertices m /\ visit_n m' = Some l' /\ Permutation l (q :: l') /\
  (forall j, j < length l' -> j <> tid -> nth_error l' j = nth_error l j).
Proof.
  intros W Vi Q. assert (Ll := proj1 (proj1 (visit_seq _ _ _) Vi)).
  assert (T : tid < length l) by (apply nth_error_Some; congruence).
  destruct (remove_ok m tid W ltac:(lia)) as [m' [E [Vm [W' [S' F]]]]].
  destruct (swap_pop_spec l tid T) as [l' [El [Sl [Nl Pl]]]]. exists m', l'.
  split; [exact E|]. split; [exact Vm|]. split; [|split].
  - unfold visit_n. apply visit_seq. split; [lia|]. intros i I. rewrite F by exact I. rewrite Nl by lia.
    apply visit_seq in Vi as [_ Fv]. destruct (i =? tid); rewrite Fv by lia; [f_equal; lia | reflexivity].
  - apply Pl, Q.
  - intros j J N. rewrite Nl by exact J. apply Nat.eqb_neq in N. rewrite N. reflexivity.
Qed.
(** Removing past the end (or from an empty mesh) is undefined. *)
Lemma remove_out m tid : num_triangles m <= tid -> remove_triangle m tid = None.
Proof.
  intros H. unfold remove_triangle, swap_pop. destruct (back (m_triangles m)); [|reflexivity].
  rewrite set_nth_none by exact H. reflexivity.
Qed.

(** *** Adding *)
Lemma add_vertex_wf m v : well_formed m -> well_formed (fst (add_vertex m v)).
Proof.
  intros [L W]. split; cbn [fst add_vertex m_vertices m_triangles m_normals]; [exact L|].
  rewrite app_length. cbn. revert W. apply Forall_impl. intros [[i j] k]. unfold index_ok. lia.
Qed.
Lemma add_triangle_wf m t n : well_formed m -> index_ok (num_vertices m) t -> well_formed (add_triangle m t n).
Proof.
  intros [L W] I. split; cbn [add_triangle m_vertices m_triangles m_normals]; [rewrite !app_length; cbn; lia|].
  apply Forall_app. split; [exact W|]. constructor; [exact I | constructor].
Qed.
Lemma empty_wf : well_formed (@empty_mesh V).
Proof. split; [reflexivity | constructor]. Qed.
Lemma corners_app (vs ws : list V) t : index_ok (length vs) t -> corners (vs ++ ws) t = corners vs t.
Proof.
  destruct t as [[i j] k]. unfold index_ok, corners. intros [I [J K]]. rewrite !nth_error_app1 by assumption. reflexivity.
Qed.

(** *** Appending *)
Lemma add_vertices vs : forall m, fold_left (fun a v => fst (add_vertex a v)) vs m = Mesh (m_vertices m ++ vs) (m_triangles m) (m_normals m).
Proof.
  induction vs as [|v vs IH]; intros m; cbn [fold_left].
  - rewrite app_nil_r. destruct m; reflexivity.
  - rewrite IH. cbn. rewrite <- app_assoc. reflexivity.
Qed.
Definition shift (off : nat) (t : itri) : itri := let '(i, j, k) := t in (i + off, j + off, k + off).
Lemma skipn_nth {A} (l : list A) : forall n y, nth_error l n = Some y -> skipn n l = y :: skipn (S n) l.
Proof.
  induction l as [|x l IH]; intros [|n] y H; try discriminate.
  - injection H as <-. reflexivity.
  - cbn [nth_error] in H. change (skipn (S n) (x :: l)) with (skipn n l). rewrite (IH n y H). reflexivity.
Qed.
Lemma append_loop off src k : forall n m, length (m_normals src) = length (m_triangles src) -> n + k = num_triangles src ->
  append_triangles off src (seq n k) m =
  Some (Mesh (m_vertices m) (m_triangles m ++ map (shift off) (skipn n (m_triangles src))) (m_normals m ++ skipn n (m_normals src))).
Proof.
  unfold num_triangles. induction k as [|k IH]; intros n m L E; cbn [seq append_triangles].
  - rewrite !skipn_all2 by lia. cbn [map]. rewrite !app_nil_r. destruct m; reflexivity.
  - destruct (nth_error (m_triangles src) n) as [[[a b] c]|] eqn:T; [|apply nth_error_None in T; lia].
    destruct (nth_error (m_normals src) n) as [x|] eqn:N; [|apply nth_error_None in N; lia].
    rewrite IH by lia. cbn [add_triangle m_vertices m_triangles m_normals].
    rewrite (skipn_nth _ _ _ T), (skipn_nth _ _ _ N). cbn [map shift]. rewrite <- !app_assoc. reflexivity.
Qed.
Lemma append_eq m src : well_formed src -> append m src =
  Some (Mesh (m_vertices m ++ m_vertices src) (m_triangles m ++ map (shift (num_vertices m)) (m_triangles src)) (m_normals m ++ m_normals src)).
Proof.
  intros [L _]. unfold append. rewrite add_vertices, append_loop by (auto; lia). reflexivity.
Qed.
Lemma append_wf m src m' : well_formed m -> well_formed src -> append m src = Some m' -> well_formed m'.
Proof.
  intros [L W] [L2 W2]. rewrite append_eq by (split; assumption). intros E. injection E as <-.
  split; cbn [m_vertices m_triangles m_normals]; [rewrite !app_length, map_length; lia|].
  rewrite app_length. apply Forall_app. split.
  - revert W. apply Forall_impl. intros [[i j] k]. unfold index_ok. lia.
  - apply Forall_forall. intros t I. apply in_map_iff in I as [s [<- I]]. rewrite Forall_forall in W2. specialize (W2 s I).
    destruct s as [[i j] k]. unfold index_ok, shift, num_vertices in *. lia.
Qed.
Lemma corners_shift (vs ws : list V) t : corners (vs ++ ws) (shift (length vs) t) = corners ws t.
Proof.
  destruct t as [[i j] k]. unfold shift, corners. rewrite !nth_error_app2 by lia.
  replace (i + length vs - length vs) with i by lia. replace (j + length vs - length vs) with j by lia.
  replace (k + length vs - length vs) with k by lia. reflexivity.
Qed.
Lemma append_visit m src l1 l2 : well_formed m -> well_formed src -> visit_n m = Some l1 -> visit_n src = Some l2 -> exists m',
  append m src = Some m' /\ well_formed m' /\ visit_n m' = Some (l1 ++ l2).
Proof.
  intros W1 W2 V1 V2. assert (E := append_eq m src W2). eexists. split; [exact E|]. split; [exact (append_wf _ _ _ W1 W2 E)|].
  apply visit_seq in V1 as [L1 F1]. apply visit_seq in V2 as [L2 F2]. unfold visit_n, num_triangles in *. cbn [m_triangles].
  apply visit_seq. rewrite !app_length, map_length. split; [lia|]. intros i I.
  unfold triangle_n, triangle. cbn [m_vertices m_triangles m_normals]. destruct W1 as [N1 W1]. destruct W2 as [N2 W2].
  destruct (lt_dec i (length (m_triangles m))) as [Lt|Ge].
  - rewrite !nth_error_app1 by lia. rewrite F1 by lia. unfold triangle_n, triangle.
    destruct (nth_error (m_triangles m) i) as [t|] eqn:T; [|reflexivity].
    rewrite corners_app; [reflexivity|]. rewrite Forall_forall in W1. apply W1, nth_error_In with (n := i), T.
  - rewrite !nth_error_app2 by lia. rewrite L1, N1, F2 by lia. unfold triangle_n, triangle. rewrite nth_error_map.
    destruct (nth_error (m_triangles src) (i - length (m_triangles m))) as [t|]; [|reflexivity]. cbn [option_map].
    unfold num_vertices. rewrite corners_shift. reflexivity.
Qed.
End Mesh.
