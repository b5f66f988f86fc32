(** Proofs about the key sets (C28). *)
From Coq Require Import String Ascii Bool Arith Lia List Permutation.
From Verif Require Import KeysModel.
Import ListNotations.
Local Open Scope nat_scope.

(** *** Splitting a declaration *)

(** A name as the preprocessor leaves it: non-empty, without comma and blank. *)
Definition name_char (c : ascii) : Prop := is_blank c = false /\ Ascii.eqb c "," = false.
Definition good_name (n : text) : Prop := n <> [] /\ Forall name_char n.

(** The text of a declaration: names separated by commas, with any number of
    blanks before each name. *)
Fixpoint declaration (l : list (text * text)) : text :=
  match l with
  | [] => []
  | [(b, n)] => b ++ n
  | (b, n) :: l' => b ++ n ++ ["," %char] ++ declaration l'
  end.

(** The loop on the part of the text not yet read. *)
Fixpoint split_rest (cur s : text) : list text :=
  match s with
  | [] => [cur]
  | c :: s' =>
      if is_blank c then split_rest [] s'
      else if Ascii.eqb c "," then cur :: split_rest [] s'
      else split_rest (cur ++ [c]) s'
  end.

Lemma split_loop_S n i start s : split_loop (S n) i start s =
  (if is_blank (nth i s zero) then split_loop n (S i) (S i) s
   else if (i =? length s) || Ascii.eqb (nth i s zero) "," then
     firstn (i - start) (skipn start s) :: split_loop n (S i) (S i) s
   else split_loop n (S i) start s).
Proof. reflexivity. Qed.

Lemma split_loop_rest : forall rest pre start,
  start <= length pre ->
  split_loop (S (length rest)) (length pre) start (pre ++ rest) = split_rest (skipn start pre) rest.
Proof.
  induction rest as [|c rest IH]; intros pre start Hs.
  - rewrite app_nil_r. cbn [split_loop length]. rewrite nth_overflow by lia.
    change (is_blank zero) with false. rewrite Nat.eqb_refl. cbn [orb split_rest].
    rewrite firstn_all2; [reflexivity|]. rewrite skipn_length. lia.
  - change (length (c :: rest)) with (S (length rest)). rewrite split_loop_S.
    rewrite app_nth2 by lia. rewrite Nat.sub_diag. cbn [nth split_rest].
    assert (E : pre ++ c :: rest = (pre ++ [c]) ++ rest) by (rewrite <- app_assoc; reflexivity).
    assert (L : S (length pre) = length (pre ++ [c])) by (rewrite app_length; simpl; lia).
    assert (Hne : (length pre =? length (pre ++ c :: rest)) = false).
    { apply Nat.eqb_neq. rewrite app_length. simpl. lia. }
    rewrite Hne. cbn [orb].
    assert (Z : forall l : text, skipn (length l) l = []) by (intros l; apply skipn_all).
    destruct (is_blank c).
    + rewrite E, L. rewrite (IH (pre ++ [c]) (length (pre ++ [c]))) by lia.
      rewrite Z. reflexivity.
    + destruct (Ascii.eqb c ",").
      * f_equal.
        -- rewrite skipn_app. rewrite firstn_app. rewrite skipn_length.
           rewrite Nat.sub_diag. cbn [firstn]. rewrite app_nil_r.
           rewrite firstn_all2; [reflexivity|]. rewrite skipn_length. lia.
        -- rewrite E, L. rewrite (IH (pre ++ [c]) (length (pre ++ [c]))) by lia. rewrite Z. reflexivity.
      * rewrite E, L. rewrite (IH (pre ++ [c]) start) by (rewrite app_length; simpl; lia).
        f_equal. rewrite skipn_app. replace (start - length pre) with 0 by lia. reflexivity.
Qed.

Lemma split_names_rest s : split_names s = split_rest [] s.
Proof. exact (split_loop_rest s [] 0 (Nat.le_refl 0)). Qed.

Lemma count_items_from s : forall c,
  fold_left (fun c a => if Ascii.eqb a "," then S c else c) s c =
  c + length (filter (fun a => Ascii.eqb a ",") s).
Proof.
  induction s as [|a s IH]; intros c; simpl; [lia|].
  rewrite IH. destruct (Ascii.eqb a ","); simpl; lia.
Qed.

Lemma split_rest_length s : forall cur,
  length (split_rest cur s) = 1 + length (filter (fun a => Ascii.eqb a ",") s).
Proof.
  induction s as [|a s IH]; intros cur; [reflexivity|].
  cbn [split_rest filter]. destruct (is_blank a) eqn:B.
  - rewrite IH. destruct (Ascii.eqb a ",") eqn:E; [|reflexivity].
    apply Ascii.eqb_eq in E. subst a. discriminate B.
  - destruct (Ascii.eqb a ","); simpl; rewrite IH; simpl; lia.
Qed.

(** The number of substrings is the size of the array, for every text. *)
Lemma split_names_length s : length (split_names s) = count_items s.
Proof.
  rewrite split_names_rest, split_rest_length. unfold count_items. rewrite count_items_from. reflexivity.
Qed.

Lemma split_rest_blanks b : Forall (fun c => is_blank c = true) b -> forall s,
  split_rest [] (b ++ s) = split_rest [] s.
Proof. induction 1 as [|c b Hc _ IH]; intros s; [reflexivity|]. simpl. rewrite Hc. apply IH. Qed.

Lemma split_rest_name n : Forall name_char n -> forall cur s,
  split_rest cur (n ++ s) = split_rest (cur ++ n) s.
Proof.
  induction 1 as [|c n [Hb Hc] _ IH]; intros cur s; [rewrite app_nil_r; reflexivity|].
  cbn [app split_rest]. rewrite Hb, Hc, IH. rewrite <- app_assoc. reflexivity.
Qed.

Lemma split_declaration l : l <> [] ->
  Forall (fun e => Forall (fun c => is_blank c = true) (fst e) /\ good_name (snd e)) l ->
  split_names (declaration l) = map snd l.
Proof.
  rewrite split_names_rest. induction l as [|[b n] l IH]; intros Hne H; [congruence|].
  inversion H as [|? ? [Hb [_ Hn]] Hl]; subst. simpl in Hb, Hn.
  destruct l as [|e l].
  - cbn [declaration map snd]. rewrite split_rest_blanks by assumption.
    rewrite <- (app_nil_r n) at 1. rewrite split_rest_name by assumption. reflexivity.
  - change (declaration ((b, n) :: e :: l)) with (b ++ n ++ ("," %char :: declaration (e :: l))).
    rewrite split_rest_blanks by assumption. rewrite split_rest_name by assumption.
    change ([] ++ n) with n.
    change (split_rest n ("," %char :: declaration (e :: l))) with (n :: split_rest [] (declaration (e :: l))).
    change (map snd ((b, n) :: e :: l)) with (n :: map snd (e :: l)). f_equal.
    apply IH; [discriminate | assumption].
Qed.

(** *** The name -> key map *)

Lemma text_eqb_eq a b : text_eqb a b = true <-> a = b.
Proof. unfold text_eqb. destruct (list_eq_dec ascii_dec a b); split; intros; congruence. Qed.

Lemma find_key_some m n k : find_key m n = Some k -> In (n, k) m.
Proof.
  unfold find_key. destruct (find _ m) as [[n' k']|] eqn:F; [|discriminate].
  intros E. inversion E; subst. apply find_some in F. destruct F as [I H].
  apply text_eqb_eq in H. simpl in H. subst. exact I.
Qed.

Lemma find_key_none m n : find_key m n = None <-> ~ In n (map fst m).
Proof.
  unfold find_key. destruct (find _ m) as [[n' k']|] eqn:F; split; intros H; try discriminate; try reflexivity.
  - apply find_some in F. destruct F as [I E]. apply text_eqb_eq in E. simpl in E. subst.
    exfalso. apply H. apply in_map_iff. exists (n, k'). auto.
  - intros I. apply in_map_iff in I. destruct I as [[n' k'] [E I]]. simpl in E. subst n'.
    apply find_none with (x := (n, k')) in F; [|assumption].
    assert (T : text_eqb n n = true) by (apply text_eqb_eq; reflexivity). simpl in F. congruence.
Qed.

Lemma find_key_in m : NoDup (map fst m) -> forall n k, In (n, k) m -> find_key m n = Some k.
Proof.
  intros D n k I. destruct (find_key m n) as [k'|] eqn:F.
  - apply find_key_some in F.
    revert D F I. induction m as [|[a b] m IH]; [intros _ []|].
    simpl. intros D F I. inversion D as [|? ? Hn D']; subst.
    assert (S : forall x, In (a, x) m -> False).
    { intros x Hx. apply Hn. apply in_map_iff. exists (a, x). auto. }
    destruct F as [F|F], I as [I|I]; [congruence| | |auto];
      repeat match goal with H : (_, _) = (_, _) |- _ => inversion H; subst; clear H end; exfalso; eauto.
  - apply find_key_none in F. exfalso. apply F. apply in_map_iff. exists (n, k). auto.
Qed.

Lemma insert_key_names m e : NoDup (map fst m) -> NoDup (map fst (insert_key m e)).
Proof.
  intros D. unfold insert_key. destruct (find_key m (fst e)) eqn:F; [assumption|].
  apply find_key_none in F. rewrite map_app. simpl.
  apply NoDup_Add with (a := fst e) (l := map fst m).
  - rewrite <- (app_nil_r (map fst m)) at 1. apply Add_app.
  - split; assumption.
Qed.

Lemma make_map_from l : forall m, NoDup (map fst m) ->
  let r := fold_left insert_key l m in
  NoDup (map fst r) /\
  (forall e, In e r -> In e m \/ In e l) /\
  (forall n, In n (map fst r) <-> In n (map fst m) \/ In n (map fst l)) /\
  (forall e, In e m -> In e r).
Proof.
  induction l as [|e l IH]; intros m D; cbn zeta.
  - simpl. repeat split; tauto.
  - cbn [fold_left].
    destruct (IH (insert_key m e) (insert_key_names m e D)) as [A [B [C E]]].
    assert (I : forall x, In x (insert_key m e) -> In x m \/ x = e).
    { intros x. unfold insert_key. destruct (find_key m (fst e)); [auto|].
      rewrite in_app_iff. simpl. intuition. }
    assert (J : forall x, In x m -> In x (insert_key m e)).
    { intros x. unfold insert_key. destruct (find_key m (fst e)); [auto|]. rewrite in_app_iff. auto. }
    assert (K : forall n, In n (map fst (insert_key m e)) <-> In n (map fst m) \/ n = fst e).
    { intros n. unfold insert_key. destruct (find_key m (fst e)) eqn:F.
      - apply find_key_some in F.
        assert (In (fst e) (map fst m)) by (apply in_map_iff; exists (fst e, k); auto).
        split; [auto|]. intros [H1 | H1]; [assumption | subst; assumption].
      - rewrite map_app, in_app_iff. simpl. intuition. }
    split; [exact A|]. split; [|split].
    + intros x Hx. apply B in Hx. destruct Hx as [Hx|Hx]; [|simpl; auto].
      apply I in Hx. destruct Hx; subst; simpl; auto.
    + intros n. rewrite C, K. simpl. intuition.
    + intros x Hx. apply E, J, Hx.
Qed.

Lemma make_map_spec l :
  NoDup (map fst (make_map l)) /\
  (forall e, In e (make_map l) -> In e l) /\
  (forall n, In n (map fst (make_map l)) <-> In n (map fst l)).
Proof.
  destruct (make_map_from l [] (NoDup_nil _)) as [A [B [C _]]].
  split; [exact A|]. split.
  - intros e H. destruct (B e H) as [[] | H']. exact H'.
  - intros n. unfold make_map. rewrite C. simpl. tauto.
Qed.

(** *** Well-formed key sets *)

(** The map of a key set pairs every declared name with exactly one key, the
    key of that position. *)
Record wf_keyset (ks : keyset) : Prop := {
  wf_names : NoDup (ks_names ks);
  wf_map : NoDup (map fst (ks_map ks));
  wf_entry : forall n k, In (n, k) (ks_map ks) ->
    k_set k = ks_id ks /\ k_name k = n /\ nth_error (ks_names ks) (k_index k) = Some n;
  wf_total : forall n, In n (ks_names ks) -> In n (map fst (ks_map ks));
}.

(** Any other iteration order of the map is as good. *)
Lemma wf_keyset_order ks m : wf_keyset ks -> Permutation (ks_map ks) m ->
  wf_keyset {| ks_id := ks_id ks; ks_names := ks_names ks; ks_map := m |}.
Proof.
  intros [A B C D] P. split; simpl.
  - exact A.
  - eapply Permutation_NoDup; [apply Permutation_map; exact P | exact B].
  - intros n k H. apply C. eapply Permutation_in; [symmetry; exact P | exact H].
  - intros n H. eapply Permutation_in; [apply Permutation_map; exact P | apply D, H].
Qed.

Lemma pget_key_wf ks n k : wf_keyset ks -> pget_key ks n = Some k ->
  k_set k = ks_id ks /\ k_name k = n /\ k_index k < num_keys ks /\ nth_error (ks_names ks) (k_index k) = Some n.
Proof.
  intros W H. apply find_key_some in H. destruct (wf_entry ks W n k H) as [A [B C]].
  split; [exact A|]. split; [exact B|]. split; [|exact C].
  apply nth_error_Some. rewrite C. discriminate.
Qed.

Lemma pget_key_total ks n : wf_keyset ks -> In n (ks_names ks) -> exists k, pget_key ks n = Some k.
Proof.
  intros W H. apply (wf_total ks W) in H. apply in_map_iff in H. destruct H as [[n' k] [E H]].
  simpl in E. subst. exists k. apply find_key_in; [apply (wf_map ks W) | exact H].
Qed.

Lemma pget_key_inj ks n n' k k' : wf_keyset ks -> pget_key ks n = Some k -> pget_key ks n' = Some k' ->
  k_index k = k_index k' -> n = n'.
Proof.
  intros W H H' E. apply pget_key_wf in H; [|exact W]. apply pget_key_wf in H'; [|exact W].
  destruct H as [_ [_ [_ H]]]. destruct H' as [_ [_ [_ H']]]. rewrite E in H. congruence.
Qed.

Lemma keys_all_in ks : wf_keyset ks -> forall i, i < num_keys ks ->
  exists n k, In (n, k) (ks_map ks) /\ k_index k = i.
Proof.
  intros W i Hi. destruct (nth_error (ks_names ks) i) as [n|] eqn:E.
  - destruct (pget_key_total ks n W) as [k H]; [apply nth_error_In with i; exact E|].
    exists n, k. split; [apply find_key_some; exact H|].
    apply pget_key_wf in H; [|exact W]. destruct H as [_ [_ [L H]]].
    apply (proj1 (NoDup_nth_error (ks_names ks)) (wf_names ks W)); [exact L | congruence].
  - apply nth_error_None in E. unfold num_keys in Hi. lia.
Qed.

(** *** Registration *)

Lemma initialize_map_spec names m : initialize_map names m = Some m <->
  length m = length names /\ (forall n, In n names -> In n (map fst m)).
Proof.
  unfold initialize_map. destruct (length m =? length names) eqn:E; simpl.
  - apply Nat.eqb_eq in E. destruct (forallb _ names) eqn:F; split; intros H.
    + split; [exact E|]. intros n Hn. rewrite forallb_forall in F. specialize (F n Hn).
      destruct (find_key m n) as [k|] eqn:G; [|discriminate].
      apply find_key_some in G. apply in_map_iff. exists (n, k). auto.
    + reflexivity.
    + discriminate.
    + exfalso. destruct H as [_ H]. assert (forallb (fun n => match find_key m n with Some _ => true | None => false end) names = true).
      { apply forallb_forall. intros n Hn. destruct (find_key m n) eqn:G; [reflexivity|].
        apply find_key_none in G. exfalso. auto. }
      congruence.
  - apply Nat.eqb_neq in E. split; [discriminate | tauto].
Qed.

Lemma initialize_map_cases names m : initialize_map names m = Some m \/ initialize_map names m = None.
Proof. unfold initialize_map. destruct (negb _); auto. destruct (forallb _ _); auto. Qed.

(** The keys registered for a set are keys defined for that set. *)
Definition own_keys (id : nat) (names : list text) (ks : list key) : Prop :=
  forall k, In k ks -> k_set k = id /\ nth_error names (k_index k) = Some (k_name k).

Lemma register_iff id decl keys : NoDup (split_names decl) -> own_keys id (split_names decl) keys ->
  (exists ks, register id decl keys = Some ks) <->
  (forall i, i < length (split_names decl) -> exists k, In k keys /\ k_index k = i).
Proof.
  intros ND OK. unfold register. set (names := split_names decl) in *. set (m := make_map (map key_entry keys)).
  destruct (make_map_spec (map key_entry keys)) as [A [B C]]. fold m in A, B, C.
  assert (C' : forall n, In n (map fst m) <-> exists k, In k keys /\ k_name k = n).
  { intros n. rewrite C, map_map, in_map_iff. split; intros [k [X Y]]; exists k; auto. }
  split.
  - intros [ks H]. destruct (initialize_map_cases names m) as [I|I]; rewrite I in H; [|discriminate].
    apply initialize_map_spec in I. destruct I as [_ I]. intros i Hi.
    destruct (nth_error names i) as [n|] eqn:E; [|apply nth_error_None in E; lia].
    assert (In n names) by (eapply nth_error_In; exact E).
    destruct (proj1 (C' n) (I n H0)) as [k [Hk En]]. exists k. split; [exact Hk|].
    destruct (OK k Hk) as [_ G]. rewrite En in G.
    apply (proj1 (NoDup_nth_error names) ND); [apply nth_error_Some; rewrite G; discriminate | congruence].
  - intros H.
    assert (I : forall n, In n names -> In n (map fst m)).
    { intros n Hn. apply In_nth_error in Hn. destruct Hn as [i E].
      assert (i < length names) by (apply nth_error_Some; rewrite E; discriminate).
      destruct (H i H0) as [k [Hk Ei]]. apply C'. exists k. split; [exact Hk|].
      destruct (OK k Hk) as [_ G]. rewrite Ei in G. congruence. }
    assert (J : forall n, In n (map fst m) -> In n names).
    { intros n Hn. apply C' in Hn. destruct Hn as [k [Hk En]]. destruct (OK k Hk) as [_ G].
      subst n. eapply nth_error_In; exact G. }
    assert (L : length m = length names).
    { rewrite <- (map_length fst m). apply Nat.le_antisymm; apply NoDup_incl_length; assumption. }
    exists {| ks_id := id; ks_names := names; ks_map := m |}.
    rewrite (proj2 (initialize_map_spec names m)); [reflexivity | split; assumption].
Qed.

Lemma register_wf id decl keys ks : NoDup (split_names decl) -> own_keys id (split_names decl) keys ->
  register id decl keys = Some ks -> wf_keyset ks /\ ks_names ks = split_names decl /\ ks_id ks = id.
Proof.
  intros ND OK. unfold register. set (names := split_names decl) in *. set (m := make_map (map key_entry keys)).
  destruct (make_map_spec (map key_entry keys)) as [A [B C]]. fold m in A, B, C.
  destruct (initialize_map_cases names m) as [I|I]; rewrite I; [|discriminate].
  intros E. inversion E; subst ks; clear E. apply initialize_map_spec in I. destruct I as [L I].
  split; [|split; reflexivity]. split; simpl; auto.
  intros n k H. apply B in H. apply in_map_iff in H. destruct H as [k' [E H]].
  unfold key_entry in E. inversion E; subst. destruct (OK k H) as [X Y]. auto.
Qed.
