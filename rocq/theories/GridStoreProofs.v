From Coq Require Import Arith List Bool Permutation Lia Reals Lra.
From Verif Require Import GridModel GridSpec GridProofs GridStoreModel GridStoreSpec.
Import ListNotations.

Section P.
Context {A : Type}.
Implicit Types (h : list (event A)) (s : store A).

Definition vec_of_kind (t : bool) (s : store A) := if t then st_trimmed s else st_untrimmed s.

Definition inv (s : store A) (m : nat -> option (bool * A)) : Prop :=
  (forall id, match m id with
              | None => map_find (st_map s) id = None
              | Some (t, a) => exists k, map_find (st_map s) id = Some (Loc t k) /\
                                         nth_error (vec_of_kind t s) k = Some (Elem id a)
              end) /\
  (forall t k e, nth_error (vec_of_kind t s) k = Some e -> map_find (st_map s) (e_id e) = Some (Loc t k)).

Lemma created_app h e id : created (h ++ [e]) id =
  match created h id with
  | Some x => Some x
  | None => if ev_id e =? id then match ev_built e with Some a => Some (ev_trimmed e, a) | None => None end else None
  end.
Proof.
  induction h as [|x h IH]; simpl; [destruct (ev_id e =? id); [destruct (ev_built e)|]; reflexivity|].
  destruct (ev_id x =? id); [destruct (ev_built x)|]; auto.
Qed.

Lemma nth_error_app_last {B} (l : list B) x k y :
  nth_error (l ++ [x]) k = Some y -> nth_error l k = Some y \/ (k = length l /\ y = x).
Proof.
  intros H. destruct (lt_dec k (length l)) as [Hk|Hk].
  - rewrite nth_error_app1 in H by assumption. auto.
  - rewrite nth_error_app2 in H by lia. destruct (k - length l) as [|j] eqn:E; simpl in H.
    + injection H as <-. right; split; [lia | reflexivity].
    + destruct j; discriminate.
Qed.

Lemma inv_run h : inv (run h) (created h).
Proof.
  induction h as [|e h IH] using rev_ind.
  - split; simpl; [reflexivity|]. intros t k x H. destruct t, k; discriminate.
  - unfold run. rewrite fold_left_app. simpl. fold (run h).
    destruct IH as [I1 I2]. unfold step, make_element.
    destruct (ev_built e) as [a|] eqn:Eb.
    2:{ simpl. split; [|assumption]. intros id. rewrite created_app, Eb.
        specialize (I1 id). destruct (created h id); [assumption|]. destruct (ev_id e =? id); assumption. }
    destruct (map_find (st_map (run h)) (ev_id e)) as [loc|] eqn:Em.
    + simpl. split; [|assumption]. intros id. rewrite created_app. pose proof (I1 id) as I.
      destruct (created h id) eqn:Ec; [assumption|].
      destruct (Nat.eqb_spec (ev_id e) id) as [E|E]; [|assumption]. subst id. congruence.
    + assert (Ec : created h (ev_id e) = None).
      { specialize (I1 (ev_id e)). destruct (created h (ev_id e)) as [[t x]|]; [|reflexivity].
        destruct I1 as (k & I1 & _). congruence. }
      destruct (ev_trimmed e) eqn:Et; simpl; (split;
      [ intros id; rewrite created_app, Eb, Et; simpl; pose proof (I1 id) as I;
        destruct (Nat.eqb_spec (ev_id e) id) as [E|E];
        [ subst id; rewrite Ec; eexists; split; [reflexivity|]; simpl; rewrite nth_error_app2 by lia; rewrite Nat.sub_diag; reflexivity
        | destruct (created h id) as [[t x]|]; [|assumption];
          destruct I as (k & F & N); exists k; split; [assumption|];
          destruct t; simpl in *; try assumption; rewrite nth_error_app1; [assumption|]; apply nth_error_Some; congruence ]
      | intros t k x H; simpl;
        assert (Hc : nth_error (vec_of_kind t (run h)) k = Some x \/
                     (t = ev_trimmed e /\ k = length (vec_of_kind t (run h)) /\ x = Elem (ev_id e) a))
          by (rewrite Et; destruct t; simpl in *; auto; apply nth_error_app_last in H; intuition auto);
        destruct Hc as [Hc|(Ht & Hk & Hx)];
        [ apply I2 in Hc; destruct (Nat.eqb_spec (ev_id e) (e_id x)) as [E|E]; [congruence | assumption]
        | subst x; simpl; rewrite Nat.eqb_refl; subst k; subst t; rewrite Et; reflexivity ] ]).
Qed.

Lemma get_element_run h f id : get_element f (run h) id =
  match created h id with
  | Some (t, a) => if selected f t then Found t (Elem id a) else NotFound
  | None => NotFound
  end.
Proof.
  destruct (inv_run h) as [I1 _]. specialize (I1 id). unfold get_element.
  destruct (created h id) as [[t a]|]; [|rewrite I1; reflexivity].
  destruct I1 as (k & F & N). rewrite F. unfold at_index; cbn [l_trimmed l_index].
  destruct f, t; simpl in *; rewrite ?N; reflexivity.
Qed.

Lemma in_get_elements h f t e : In (t, e) (get_elements f (run h)) <->
  created h (e_id e) = Some (t, e_data e) /\ selected f t = true.
Proof.
  destruct (inv_run h) as [I1 I2].
  assert (K : forall t' , In e (vec_of_kind t' (run h)) <-> created h (e_id e) = Some (t', e_data e)).
  { intros t'. split.
    - intros H. apply In_nth_error in H. destruct H as [k H]. pose proof (I2 _ _ _ H) as F.
      specialize (I1 (e_id e)). destruct (created h (e_id e)) as [[t2 a]|]; [|congruence].
      destruct I1 as (k' & F' & N). rewrite F in F'. injection F' as <- <-. rewrite H in N. injection N as ->. reflexivity.
    - intros H. specialize (I1 (e_id e)). rewrite H in I1. destruct I1 as (k & _ & N).
      apply nth_error_In in N. destruct e; exact N. }
  assert (M : forall b (l : list (elem A)), In (t, e) (map (pair b) l) <-> t = b /\ In e l).
  { intros b l. rewrite in_map_iff. split; [intros (x & E & H); injection E as <- <-; auto|].
    intros [-> H]. exists e; auto. }
  unfold get_elements. destruct f; rewrite ?in_app_iff, ?M; simpl;
    rewrite ?(K true), ?(K false); simpl.
  - clear. destruct t; split; [intros [[E H]|[E H]] | intros [H _]; auto | intros [[E H]|[E H]] | intros [H _]; auto];
      try discriminate; auto.
  - clear. destruct t; split; [intros [E H] | intros [H E] | intros [E H] | intros [H E]]; try discriminate; auto.
  - clear. destruct t; split; [intros [E H] | intros [H E] | intros [E H] | intros [H E]]; try discriminate; auto.
Qed.

Lemma NoDup_ids h f : NoDup (map (fun x => e_id (snd x)) (get_elements f (run h))).
Proof.
  destruct (inv_run h) as [I1 I2].
  assert (K : forall t, NoDup (map (@e_id A) (vec_of_kind t (run h)))).
  { intros t. rewrite NoDup_nth_error. intros i j Hi E. rewrite map_length in Hi.
    rewrite !nth_error_map in E.
    destruct (nth_error (vec_of_kind t (run h)) i) as [x|] eqn:Ex; [|apply nth_error_None in Ex; lia].
    destruct (nth_error (vec_of_kind t (run h)) j) as [y|] eqn:Ey; simpl in E; [|discriminate].
    injection E as E. apply I2 in Ex, Ey. rewrite E in Ex. congruence. }
  assert (M : forall b l, map (fun x : bool * elem A => e_id (snd x)) (map (pair b) l) = map (@e_id A) l).
  { intros b l. rewrite map_map. reflexivity. }
  unfold get_elements. destruct f; rewrite ?map_app, !M; try apply (K true); try apply (K false).
  rewrite <- (app_nil_r (map _ (st_trimmed _))).
  assert (D : forall x, In x (map (@e_id A) (st_untrimmed (run h))) -> ~ In x (map (@e_id A) (st_trimmed (run h)))).
  { intros x H H'. rewrite in_map_iff in H, H'. destruct H as (e & E & H), H' as (e' & E' & H').
    apply In_nth_error in H, H'. destruct H as [k H], H' as [k' H'].
    apply (I2 false) in H. apply (I2 true) in H'. rewrite E in H; rewrite E' in H'. congruence. }
  rewrite app_nil_r. clear M I1 I2. pose proof (K true) as Kt. pose proof (K false) as Kf. simpl in *.
  induction (map (@e_id A) (st_untrimmed (run h))) as [|x l IH]; simpl; [assumption|].
  inversion Kf; subst. constructor.
  - rewrite in_app_iff. intros [?|?]; [contradiction|]. eapply D; [left; reflexivity|assumption].
  - apply IH; [|assumption]. intros y Hy. apply D. right; assumption.
Qed.

Lemma count_ids h f ids : NoDup ids ->
  (forall id, In id ids <-> exists t a, created h id = Some (t, a) /\ selected f t = true) ->
  length (get_elements f (run h)) = length ids.
Proof.
  intros Hn Hi. rewrite <- (map_length (fun x => e_id (snd x))).
  apply Permutation_length. apply NoDup_Permutation; [apply NoDup_ids | assumption |].
  intros id. rewrite Hi, in_map_iff. split.
  - intros ([t e] & E & H). rewrite in_get_elements in H. simpl in E. subst id. exists t, (e_data e). assumption.
  - intros (t & a & H). exists (t, Elem id a). split; [reflexivity|]. rewrite in_get_elements. assumption.
Qed.

Lemma counts_lengths s : num_active s = length (get_elements FAll s) /\
  num_trimmed s = length (get_elements FTrimmed s) /\ num_untrimmed s = length (get_elements FUntrimmed s).
Proof. unfold num_active, num_trimmed, num_untrimmed, get_elements. rewrite app_length, !map_length. auto. Qed.

Lemma created_none_id_unused h id : created h id = None <-> forall e, In e h -> ev_id e = id -> ev_built e = None.
Proof.
  induction h as [|x h IH]; simpl; [split; [contradiction|reflexivity]|].
  destruct (Nat.eqb_spec (ev_id x) id) as [E|E].
  - destruct (ev_built x) eqn:Eb.
    + split; [discriminate|]. intros H. specialize (H x (or_introl eq_refl) E). congruence.
    + rewrite IH. split; [intros H e [<-|He]; auto | auto].
  - rewrite IH. split; [intros H e [<-|He] Ei; [contradiction|auto] | auto].
Qed.

(** ** C07 *)
Lemma duplicate_rejected h t id a : created h id <> None ->
  snd (make_element (run h) t id (Some a)) = DuplicateError /\
  same_store (run (h ++ [Ev t id (Some a)])) (run h).
Proof.
  intros Hc. destruct (inv_run h) as [I1 _]. specialize (I1 id).
  destruct (created h id) as [[t' a']|]; [|contradiction]. destruct I1 as (k & F & _).
  assert (run (h ++ [Ev t id (Some a)]) = run h) as E.
  { unfold run. rewrite fold_left_app. simpl. fold (run h). unfold step, make_element; simpl. rewrite F. reflexivity. }
  split; [unfold make_element; rewrite F; reflexivity|]. rewrite E. repeat split; reflexivity.
Qed.

Lemma failed_build_ignored h t id :
  snd (make_element (run h) t id None) = NotMade /\ same_store (run (h ++ [Ev t id None])) (run h).
Proof.
  assert (run (h ++ [Ev t id None]) = run h) as E.
  { unfold run. rewrite fold_left_app. reflexivity. }
  split; [reflexivity|]. rewrite E. repeat split; reflexivity.
Qed.

Lemma fresh_made h t id a : created h id = None ->
  snd (make_element (run h) t id (Some a)) = Made /\
  (forall f, get_element f (run (h ++ [Ev t id (Some a)])) id = if selected f t then Found t (Elem id a) else NotFound) /\
  (forall f id', id' <> id -> get_element f (run (h ++ [Ev t id (Some a)])) id' = get_element f (run h) id').
Proof.
  intros Hc. destruct (inv_run h) as [I1 _]. specialize (I1 id). rewrite Hc in I1.
  split; [unfold make_element; rewrite I1; destruct t; reflexivity|]. split.
  - intros f. rewrite get_element_run, created_app, Hc. simpl. rewrite Nat.eqb_refl. reflexivity.
  - intros f id' Hne. rewrite !get_element_run, created_app. simpl.
    destruct (created h id') as [[]|]; [reflexivity|]. destruct (Nat.eqb_spec id id'); [congruence|reflexivity].
Qed.

(** ** C08 *)
Lemma created_loop cls (bt bu : nat -> option A) l id t a :
  created (map (loop_event cls bt bu) l) id = Some (t, a) <->
  exists i, In i l /\ id = i + 1 /\ ev_built (loop_event cls bt bu i) = Some a /\
            t = ev_trimmed (loop_event cls bt bu i).
Proof.
  assert (Eid : forall i, ev_id (loop_event (A:=A) cls bt bu i) = i + 1) by (intros i; unfold loop_event; destruct (cls i); reflexivity).
  induction l as [|i l IH]; simpl.
  - split; [discriminate|]. intros (i & [] & _).
  - rewrite Eid. destruct (Nat.eqb_spec (i + 1) id) as [E|E].
    + destruct (ev_built (loop_event cls bt bu i)) as [b|] eqn:Eb.
      * split.
        -- intros H; injection H as <- <-. exists i. auto.
        -- intros (j & _ & Ej & Hj & ->). assert (j = i) by lia. subst j. rewrite Eb in Hj. injection Hj as ->. reflexivity.
      * rewrite IH. split.
        -- intros (j & Hj & R). exists j. auto.
        -- intros (j & [->|Hj] & Ej & R & R'); [congruence|]. exists j; auto.
    + rewrite IH. split.
      * intros (j & Hj & R). exists j. auto.
      * intros (j & [->|Hj] & Ej & R & R'); [congruence|]. exists j; auto.
Qed.

Lemma created_loop_perm cls bt bu l l' : (forall i, In i l <-> In i l') ->
  forall id, created (map (loop_event (A:=A) cls bt bu) l) id = created (map (loop_event cls bt bu) l') id.
Proof.
  intros H id.
  destruct (created (map (loop_event cls bt bu) l) id) as [[t a]|] eqn:E1.
  - symmetry. rewrite created_loop in *. destruct E1 as (i & Hi & R). exists i. rewrite <- H. auto.
  - destruct (created (map (loop_event cls bt bu) l') id) as [[t a]|] eqn:E2; [|reflexivity].
    rewrite created_loop in E2. destruct E2 as (i & Hi & R).
    assert (created (map (loop_event cls bt bu) l) id = Some (t, a)) by (rewrite created_loop; exists i; rewrite H; auto).
    congruence.
Qed.

Lemma run_same h h' : (forall id, created h id = created h' id) -> same_up_to_order (run h) (run h').
Proof.
  intros H.
  assert (P : forall f, Permutation (get_elements f (run h)) (get_elements f (run h'))).
  { intros f. apply NoDup_Permutation; [| |].
    - eapply NoDup_map_inv. apply (NoDup_ids h).
    - eapply NoDup_map_inv. apply (NoDup_ids h').
    - intros [t e]. rewrite !in_get_elements, H. reflexivity. }
  split; [intros f id; rewrite !get_element_run, H; reflexivity|]. split; [assumption|].
  - destruct (counts_lengths (run h)) as (-> & -> & ->), (counts_lengths (run h')) as (-> & -> & ->).
    repeat split; apply Permutation_length, P.
Qed.

Lemma loop_order_independent cls bt bu n l l' :
  Permutation l (active_indices cls n) -> Permutation l' (active_indices cls n) ->
  same_up_to_order (run_loop (A:=A) cls bt bu l) (run_loop cls bt bu l').
Proof.
  intros H H'. unfold run_loop. apply run_same. apply created_loop_perm.
  intros i. split; intros Hi.
  - exact (Permutation_in _ (Permutation_sym H') (Permutation_in _ H Hi)).
  - exact (Permutation_in _ (Permutation_sym H) (Permutation_in _ H' Hi)).
Qed.

Lemma loop_element cls bt bu n l i f :
  Permutation l (active_indices cls n) ->
  get_element f (run_loop (A:=A) cls bt bu l) (i + 1) =
    (if i <? n then
       match cls i with
       | Trimmed => match bt i with Some a => if selected f true then Found true (Elem (i+1) a) else NotFound | None => NotFound end
       | Inside => match bu i with Some a => if selected f false then Found false (Elem (i+1) a) else NotFound | None => NotFound end
       | Outside => NotFound
       end
     else NotFound).
Proof.
  intros H. unfold run_loop. rewrite get_element_run.
  assert (Hin : In i l <-> i < n /\ cls i <> Outside).
  { split.
    - intros Hi. apply (Permutation_in _ H) in Hi. unfold active_indices in Hi. rewrite filter_In, in_seq in Hi.
      destruct (cls i); split; try lia; try congruence; destruct Hi; discriminate.
    - intros [Hi Hc]. apply (Permutation_in _ (Permutation_sym H)). unfold active_indices. rewrite filter_In, in_seq.
      split; [lia|]. destruct (cls i); congruence. }
  destruct (created (map (loop_event cls bt bu) l) (i + 1)) as [[t a]|] eqn:E.
  - rewrite created_loop in E. destruct E as (j & Hj & Ej & Hb & Ht). assert (j = i) by lia. subst j.
    apply Hin in Hj. destruct Hj as [Hi Hc]. apply Nat.ltb_lt in Hi. rewrite Hi.
    unfold loop_event in *. destruct (cls i); simpl in *; try contradiction; rewrite Hb; subst t; reflexivity.
  - destruct (Nat.ltb_spec i n) as [Hi|]; [|reflexivity].
    assert (N : cls i <> Outside -> ev_built (loop_event cls bt bu i) = None).
    { intros Hc. destruct (ev_built (loop_event cls bt bu i)) as [a|] eqn:Eb; [exfalso|reflexivity].
      assert (created (map (loop_event cls bt bu) l) (i + 1) = Some (ev_trimmed (loop_event cls bt bu i), a)); [|congruence].
      rewrite created_loop. exists i. split; [apply Hin; auto|]. auto. }
    unfold loop_event in N. destruct (cls i); simpl in *; try (rewrite N by congruence); reflexivity.
Qed.

(** ** C09 *)
Lemma next_spec g f h c d : grid_ok g -> in_grid g c ->
  let r := get_next g f (run h) (vec_of g c + 1) d in
  nr_id r = fst (next_index_g g (vec_of g c) d) + 1 /\
  nr_element r = get_element f (run h) (nr_id r) /\
  (nr_is_end r = false <->
     exists c' t a, face_nb d c c' /\ in_grid g c' /\ nr_id r = vec_of g c' + 1 /\
                  created h (vec_of g c' + 1) = Some (t, a) /\ selected f t = true /\
                  nr_element r = Found t (Elem (vec_of g c' + 1) a)).
Proof.
  intros Hg Hc. unfold get_next, next_index_g. replace (vec_of g c + 1 - 1) with (vec_of g c) by lia.
  destruct (next_index g (vec_of g c) d (global_part g)) as [j inf] eqn:En. cbn [nr_id nr_element nr_is_end fst].
  split; [reflexivity|]. split; [reflexivity|].
  rewrite get_element_run. split.
  - intros H. destruct (created h (j + 1)) as [[t a]|] eqn:Ec; [|discriminate].
    destruct (selected f t) eqn:Es; [|discriminate].
    destruct inf; try discriminate.
    destruct (proj1 (step_middle_iff g d (global_part g) c j (global_part_ok g Hg) (proj2 (in_box_global g c Hg) Hc)) En)
      as (c' & Hn & Hb & ->).
    exists c', t, a. rewrite Ec. repeat (split; [first [assumption | reflexivity | apply in_box_global; assumption]|]).
    reflexivity.
  - intros (c' & t & a & Hn & Hb & Ej & Ec & Es & _). assert (j = vec_of g c') by lia. subst j.
    rewrite Ec, Es.
    assert (inf = Middle) as ->; [|reflexivity].
    assert (next_index g (vec_of g c) d (global_part g) = (vec_of g c', Middle)) as E2; [|congruence].
    apply step_middle_iff; [apply global_part_ok; assumption | apply in_box_global; assumption |].
    exists c'. split; [assumption|]. split; [apply in_box_global; assumption | reflexivity].
Qed.

Lemma store_is_end_spec g c d : grid_ok g -> in_grid g c ->
  (store_is_end g (vec_of g c + 1) d = true <-> forall c', face_nb d c c' -> ~ in_grid g c').
Proof.
  intros Hg Hc. unfold store_is_end. replace (vec_of g c + 1 - 1) with (vec_of g c) by lia.
  rewrite is_end_no_nb; [| apply global_part_ok; assumption | apply in_box_global; assumption].
  split; intros H c' Hn Hi; apply (H c' Hn); apply in_box_global; assumption.
Qed.
End P.

(** ** summary numbers *)
Lemma fold_sum_acc {B} (f : B -> R) l acc : (fold_left (fun a x => a + f x) l acc = acc + fold_left (fun a x => a + f x) l 0)%R.
Proof.
  revert acc. induction l as [|x l IH]; intros acc; simpl; [ring|].
  rewrite IH. rewrite (IH (0 + f x)%R). ring.
Qed.
Lemma fold_sum_perm {B} (f : B -> R) l l' : Permutation l l' ->
  (fold_left (fun a x => a + f x) l 0 = fold_left (fun a x => a + f x) l' 0)%R.
Proof.
  induction 1; simpl.
  - reflexivity.
  - rewrite fold_sum_acc, IHPermutation. symmetry. apply fold_sum_acc.
  - f_equal. ring.
  - congruence.
Qed.
Lemma fold_nat_acc {B} (f : B -> nat) l acc : fold_left (fun a x => a + f x) l acc = acc + fold_left (fun a x => a + f x) l 0.
Proof.
  revert acc. induction l as [|x l IH]; intros acc; simpl; [lia|].
  rewrite IH. rewrite (IH (f x)). lia.
Qed.
Lemma fold_nat_perm {B} (f : B -> nat) l l' : Permutation l l' ->
  fold_left (fun a x => a + f x) l 0 = fold_left (fun a x => a + f x) l' 0.
Proof.
  induction 1; simpl.
  - reflexivity.
  - rewrite fold_nat_acc, IHPermutation. symmetry. apply fold_nat_acc.
  - f_equal. lia.
  - congruence.
Qed.
Lemma fold_left_ext {B C} (f g : C -> B -> C) l : (forall a x, f a x = g a x) -> forall acc, fold_left f l acc = fold_left g l acc.
Proof. intros H. induction l as [|x l IH]; intros acc; simpl; [reflexivity|]. rewrite H. apply IH. Qed.

Lemma summary_perm (s s' : store quad_data) : Permutation (get_elements FAll s) (get_elements FAll s') ->
  represented_volume s = represented_volume s' /\ tot_points_full s = tot_points_full s' /\
  tot_points_trimmed s = tot_points_trimmed s'.
Proof.
  intros H. split; [|split].
  - apply (fold_sum_perm (fun te => (q_detj (e_data (snd te)) * sum_weights (q_weights (e_data (snd te))))%R)). assumption.
  - pose (f := fun te : bool * elem quad_data => if fst te : bool then 0 else length (q_weights (e_data (snd te)))).
    assert (E : forall x, tot_points_full x = fold_left (fun a te => a + f te) (get_elements FAll x) 0).
    { intros x. apply fold_left_ext. unfold f. intros a [[] y]; simpl; lia. }
    rewrite !E. apply fold_nat_perm; assumption.
  - pose (f := fun te : bool * elem quad_data => if fst te : bool then length (q_weights (e_data (snd te))) else 0).
    assert (E : forall x, tot_points_trimmed x = fold_left (fun a te => a + f te) (get_elements FAll x) 0).
    { intros x. apply fold_left_ext. unfold f. intros a [[] y]; simpl; lia. }
    rewrite !E. apply fold_nat_perm; assumption.
Qed.

Lemma loop_summary_order_independent cls bt bu n l l' :
  Permutation l (active_indices cls n) -> Permutation l' (active_indices cls n) ->
  represented_volume (run_loop cls bt bu l) = represented_volume (run_loop cls bt bu l') /\
  tot_points_full (run_loop cls bt bu l) = tot_points_full (run_loop cls bt bu l') /\
  tot_points_trimmed (run_loop cls bt bu l) = tot_points_trimmed (run_loop cls bt bu l').
Proof.
  intros H H'. apply summary_perm. apply (loop_order_independent cls bt bu n l l' H H').
Qed.
