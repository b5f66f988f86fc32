(** Properties C25, C26, C27 of dictionaries made by the factory and changed by
    any history of operations. *)
From Coq Require Import String Ascii Bool NArith ZArith QArith Arith List Lia.
From Verif Require Import KeysModel KeysProofs SettingsKeys DictModel DictProofs SettingsModel SettingsProofs.
Import ListNotations.
Local Open Scope string_scope.
Local Open Scope nat_scope.

Section Histories.
Variable D : Type.
Variable of_int : Z -> D.
Variable dbl : Q -> D.

(** The dictionaries a user can get: made by the factory, changed by operations
    (successful or not) whose arguments are such dictionaries (or null). *)
Inductive reachable : dict D -> Prop :=
| r_create n d : create dbl n = Ok d -> reachable d
| r_set d p n v : reachable d -> reachable (fst (act_at of_int d p (SetVal n v)))
| r_sub d p n x : reachable d -> reachable x -> reachable (fst (act_at of_int d p (SetSub n (Some x))))
| r_sub_null d p n : reachable d -> reachable (fst (act_at of_int d p (SetSub n None)))
| r_append d p n x : reachable d -> reachable x -> reachable (fst (act_at of_int d p (Append n (Some x))))
| r_append_null d p n : reachable d -> reachable (fst (act_at of_int d p (Append n None))).

Lemma reachable_sound d : reachable d -> sound D d.
Proof.
  induction 1 as [n d C|d p n v H IH|d p n x H IH Hx IHx|d p n H IH|d p n x H IH Hx IHx|d p n H IH].
  - exact (create_sound D of_int dbl n d C).
  - apply act_at_sound; [exact IH | exact I].
  - apply act_at_sound; [exact IH|]. intros y E. inversion E; subst. exact IHx.
  - apply act_at_sound; [exact IH|]. intros y E. inversion E.
  - apply act_at_sound; [exact IH|]. intros y E. inversion E; subst. exact IHx.
  - apply act_at_sound; [exact IH|]. intros y E. inversion E.
Qed.
End Histories.

(** *** C25 *)

Lemma stored_types D of_int dbl (d : dict D) p x ds n k : reachable D of_int dbl d ->
  walk d p = Ok x -> d_data x = Some ds -> pget_key (ds_keys ds) n = Some k ->
  exists v, nth_error (ds_data ds) (k_index k) = Some v /\ (v = Unset \/ held v = k_type k).
Proof.
  intros R W E K. destruct (reachable_sound D of_int dbl d R p x W) as [L _]. rewrite E in L.
  destruct L as [Wf [Len Ty]]. destruct (pget_key_wf _ _ _ Wf K) as [_ [_ [I _]]]. rewrite <- Len in I.
  destruct (nth_error (ds_data ds) (k_index k)) as [v|] eqn:N; [|apply nth_error_None in N; lia].
  exists v. split; [reflexivity|]. destruct (held v) as [t|] eqn:H; [|destruct v; try discriminate; auto].
  right. symmetry. eapply Ty; eauto.
Qed.
Theorem C25_stored_values_are_typed : forall D of_int dbl (d : dict D) p x ds n k, reachable D of_int dbl d ->
  walk d p = Ok x -> d_data x = Some ds -> pget_key (ds_keys ds) n = Some k ->
  exists v, nth_error (ds_data ds) (k_index k) = Some v /\ (v = Unset \/ held v = k_type k).
Proof. exact stored_types. Qed.
Print Assumptions C25_stored_values_are_typed.

Theorem C25_failed_operation_changes_nothing : forall D of_int dbl (d : dict D) p a, reachable D of_int dbl d ->
  snd (act_at of_int d p a) <> Ok tt -> fst (act_at of_int d p a) = d.
Proof. intros D of_int dbl d p a R. apply act_at_fails, (reachable_sound D of_int dbl d R). Qed.
Print Assumptions C25_failed_operation_changes_nothing.

(** The operations by name report errors; they never have undefined behaviour
    unless a list entry that does not exist (or is null) is used. *)
Definition no_item (s : step) : Prop := match s with Sub _ => True | Item _ _ => False end.
Lemma go_defined D (d : dict D) n : level_ok D d -> (exists x, go d (Sub n) = Ok x) \/ go d (Sub n) = Error.
Proof.
  intros [_ [L _]]. simpl. destruct (d_subs d) as [[ks l]|]; [|auto]. destruct L as [W Len].
  destruct (pget_key ks n) as [k|] eqn:K; [|auto]. destruct (pget_key_wf _ _ _ W K) as [_ [_ [I _]]]. rewrite <- Len in I.
  destruct (nth_error l (k_index k)) as [[x|]|] eqn:N; eauto. apply nth_error_None in N. lia.
Qed.
Lemma set_defined D of_int p : forall (d : dict D) n v, sound D d -> Forall no_item p ->
  snd (act_at of_int d p (SetVal n v)) = Ok tt \/ snd (act_at of_int d p (SetVal n v)) = Error.
Proof.
  induction p as [|s p IH]; intros d n v S F.
  - simpl. assert (L := sound_level _ _ S). destruct d as [[ds|] ss ll]; [|auto]. destruct L as [L _]. simpl in L. simpl.
    destruct (set_value_spec D of_int ds n v L) as [[k [t [w [l [_ [_ [_ [_ E]]]]]]]]|[_ E]]; rewrite E; auto.
  - inversion F as [|? ? Hs F']; subst. destruct s as [m|]; [|destruct Hs].
    cbn [act_at]. destruct (go_defined D d m (sound_level _ _ S)) as [[x G]|G]; rewrite G; [|auto].
    specialize (IH x n v (sound_go _ _ _ _ S G) F'). destruct (act_at of_int x p (SetVal n v)). exact IH.
Qed.
Theorem C25_assignment_is_defined : forall D of_int dbl (d : dict D) p n v, reachable D of_int dbl d -> Forall no_item p ->
  snd (act_at of_int d p (SetVal n v)) = Ok tt \/ snd (act_at of_int d p (SetVal n v)) = Error.
Proof. intros D of_int dbl d p n v R. apply set_defined, (reachable_sound D of_int dbl d R). Qed.
Print Assumptions C25_assignment_is_defined.

(** A history: a grid type is set, a wrong type is rejected, a condition is
    appended and changed. *)
Definition ex_dbl : Q -> Q := fun q => q.
Definition ex_ops : list (list step * action Q) :=
  [ ([Sub (lit "background_grid_settings")], SetVal (lit "grid_type") (IGrid b_spline_grid));
    ([Sub (lit "background_grid_settings")], SetVal (lit "polynomial_order") (IDouble 1%Q));
    ([Sub (lit "background_grid_settings")], SetVal (lit "lower_bound_xyz") (IVec 1 2 3));
    ([Sub (lit "general_settings")], SetVal (lit "echo_level") (IInt (-1)));
    ([Sub (lit "general_settings")], SetVal (lit "echo_level") (IInt 2)) ].
Definition ex_start : dict Q := match create_settings ex_dbl with Ok d => d | _ => new_dict None None None end.
Lemma ex_created : create ex_dbl (lit "Settings") = Ok ex_start.
Proof. vm_compute. reflexivity. Qed.
Example C25_example :
  reachable Q inject_Z ex_dbl (run inject_Z ex_start ex_ops) /\
  map (fun op => snd (act_at inject_Z ex_start (fst op) (snd op))) ex_ops = [Ok tt; Error; Ok tt; Error; Ok tt] /\
  read Q (run inject_Z ex_start ex_ops) [Sub (lit "background_grid_settings")] TPoint (lit "lower_bound_xyz") = Ok (VPoint 1%Q 2%Q 3%Q) /\
  read Q (run inject_Z ex_start ex_ops) [Sub (lit "general_settings")] TIndex (lit "echo_level") = Ok (VIndex 2).
Proof.
  split.
  - unfold run, ex_ops. cbn [fold_left fst snd]. do 5 apply r_set. exact (r_create _ _ _ _ _ ex_created).
  - split; [|split]; vm_compute; reflexivity.
Qed.

(** *** C26 *)

(** An assignment succeeds exactly if the dictionary has the key and the value
    can be converted to its type; [conv] is the table of conversions. *)
Theorem C26_assignment_succeeds : forall D of_int dbl (d : dict D) p n v, reachable D of_int dbl d ->
  (snd (act_at of_int d p (SetVal n v)) = Ok tt <->
   exists x ds k t w, walk d p = Ok x /\ d_data x = Some ds /\ pget_key (ds_keys ds) n = Some k /\
     k_type k = Some t /\ conv D of_int v t w).
Proof. intros D of_int dbl d p n v R. apply set_succeeds, (reachable_sound D of_int dbl d R). Qed.
Print Assumptions C26_assignment_succeeds.

Theorem C26_read_back : forall D of_int dbl (d : dict D) p n v, reachable D of_int dbl d ->
  snd (act_at of_int d p (SetVal n v)) = Ok tt ->
  exists t w, conv D of_int v t w /\
    (forall t', read D (fst (act_at of_int d p (SetVal n v))) p t' n = if ty_eqb t t' then Ok w else Error) /\
    is_set_at D (fst (act_at of_int d p (SetVal n v))) p n = Ok true.
Proof. intros D of_int dbl d p n v R. apply read_set, (reachable_sound D of_int dbl d R). Qed.
Print Assumptions C26_read_back.

Theorem C26_other_entries_kept : forall D of_int dbl (d : dict D) p n v p' n' t, reachable D of_int dbl d ->
  (p', n') <> (p, n) ->
  read D (fst (act_at of_int d p (SetVal n v))) p' t n' = read D d p' t n' /\
  is_set_at D (fst (act_at of_int d p (SetVal n v))) p' n' = is_set_at D d p' n'.
Proof. intros D of_int dbl d p n v p' n' t R. apply read_set_other, (reachable_sound D of_int dbl d R). Qed.
Print Assumptions C26_other_entries_kept.

(** Reading an entry that is not set is an error, for every type asked for;
    reading a set entry gives a value for exactly one type. *)
Lemma unset_error D of_int dbl (d : dict D) p n : reachable D of_int dbl d ->
  (is_set_at D d p n = Ok false -> forall t, read D d p t n = Error) /\
  (is_set_at D d p n = Ok true -> exists t w, held w = Some t /\ forall t', read D d p t' n = if ty_eqb t t' then Ok w else Error).
Proof.
  intros _. unfold read, is_set_at. destruct (walk d p) as [x| | |]; try (split; discriminate). cbn [bind].
  unfold dict_is_set, dict_get. destruct (d_data x) as [ds|]; [|split; discriminate].
  unfold is_set, get_value. destruct (pget_key (ds_keys ds) n) as [k|]; [|split; discriminate].
  destruct (nth_error (ds_data ds) (k_index k)) as [v|]; [|split; discriminate].
  destruct (held v) as [t|] eqn:H; split; intros E; try discriminate.
  - exists t, v. auto.
  - reflexivity.
Qed.
Theorem C26_unset_is_an_error : forall D of_int dbl (d : dict D) p n, reachable D of_int dbl d ->
  (is_set_at D d p n = Ok false -> forall t, read D d p t n = Error) /\
  (is_set_at D d p n = Ok true -> exists t w, held w = Some t /\ forall t', read D d p t' n = if ty_eqb t t' then Ok w else Error).
Proof. exact unset_error. Qed.
Print Assumptions C26_unset_is_an_error.

(** Access by compile-time key agrees with access by name: the value that is
    read, and for optional values nothing exactly if it is not set. *)
Lemma by_key D of_int dbl (d : dict D) p x ds n k t : reachable D of_int dbl d ->
  walk d p = Ok x -> d_data x = Some ds -> pget_key (ds_keys ds) n = Some k -> k_type k = Some t ->
  (forall w, get_required t ds k = Ok w <-> read D d p t n = Ok w) /\
  (forall w, try_get t ds k = Ok (Some w) <-> read D d p t n = Ok w) /\
  (try_get t ds k = Ok None <-> is_set_at D d p n = Ok false) /\
  (exists o, try_get t ds k = Ok o).
Proof.
  intros R W E K T. destruct (stored_types D of_int dbl d p x ds n k R W E K) as [v [N H]].
  unfold read, is_set_at. rewrite W. cbn [bind]. unfold dict_get, dict_is_set. rewrite E. unfold get_value, is_set, get_required, try_get.
  rewrite K, N. assert (X : ty_eqb t t = true) by (apply ty_eqb_eq; reflexivity).
  destruct H as [-> | H]; cbn [held].
  - split; [|split; [|split]]; try (intros w); try (split; intros A; discriminate A); try (split; reflexivity). eauto.
  - rewrite H, T, X. split; [|split; [|split]]; try (intros w); try (split; intros A; congruence). eauto.
Qed.
Theorem C26_access_by_key : forall D of_int dbl (d : dict D) p x ds n k t, reachable D of_int dbl d ->
  walk d p = Ok x -> d_data x = Some ds -> pget_key (ds_keys ds) n = Some k -> k_type k = Some t ->
  (forall w, get_required t ds k = Ok w <-> read D d p t n = Ok w) /\
  (forall w, try_get t ds k = Ok (Some w) <-> read D d p t n = Ok w) /\
  (try_get t ds k = Ok None <-> is_set_at D d p n = Ok false) /\
  (exists o, try_get t ds k = Ok o).
Proof. exact by_key. Qed.
Print Assumptions C26_access_by_key.

(** A dictionary has a name exactly if it is declared for one of its values,
    sub-dictionaries or lists, whether or not the entry is set. *)
Lemma pget_key_names ks n : wf_keyset ks -> (match pget_key ks n with Some _ => true | None => false end = true <-> In n (ks_names ks)).
Proof.
  intros W. split.
  - destruct (pget_key ks n) as [k|] eqn:K; [|discriminate]. intros _. destruct (pget_key_wf ks n k W K) as [_ [_ [_ N]]]. exact (nth_error_In _ _ N).
  - intros H. destruct (pget_key ks n) as [k|] eqn:K; [reflexivity|]. exfalso.
    assert (I := wf_total ks W n H). apply in_map_iff in I. destruct I as [[m k] [E I]]. cbn [fst] in E. subst m.
    assert (Q : pget_key ks n = Some k) by (apply find_key_in; [apply (wf_map ks W)|exact I]). congruence.
Qed.
Lemma has_exact D of_int dbl (d : dict D) p x n : reachable D of_int dbl d -> walk d p = Ok x ->
  (dict_has x n = true <->
   In n ((match d_data x with Some ds => ks_names (ds_keys ds) | None => [] end) ++
         (match d_subs x with Some (ks, _) => ks_names ks | None => [] end) ++
         (match d_lists x with Some (ks, _) => ks_names ks | None => [] end))).
Proof.
  intros R W. destruct (reachable_sound D of_int dbl d R p x W) as [A [B C]]. destruct x as [data subs lists]. cbn [d_data d_subs d_lists] in *.
  unfold dict_has, has. rewrite !orb_true_iff, !in_app_iff.
  assert (X : (match data with Some ds => match pget_key (ds_keys ds) n with Some _ => true | None => false end | None => false end = true <-> In n (match data with Some ds => ks_names (ds_keys ds) | None => [] end)))
    by (destruct data as [ds|]; [apply pget_key_names, A|split; [discriminate|intros []]]).
  assert (Y : (match subs with Some (ks, _) => match pget_key ks n with Some _ => true | None => false end | None => false end = true <-> In n (match subs with Some (ks, _) => ks_names ks | None => [] end)))
    by (destruct subs as [[ks l]|]; [apply pget_key_names, B|split; [discriminate|intros []]]).
  assert (Z : (match lists with Some (ks, _) => match pget_key ks n with Some _ => true | None => false end | None => false end = true <-> In n (match lists with Some (ks, _) => ks_names ks | None => [] end)))
    by (destruct lists as [[ks l]|]; [apply pget_key_names, C|split; [discriminate|intros []]]).
  tauto.
Qed.
Theorem C26_has_exact : forall D of_int dbl (d : dict D) p x n, reachable D of_int dbl d -> walk d p = Ok x ->
  (dict_has x n = true <->
   In n ((match d_data x with Some ds => ks_names (ds_keys ds) | None => [] end) ++
         (match d_subs x with Some (ks, _) => ks_names ks | None => [] end) ++
         (match d_lists x with Some (ks, _) => ks_names ks | None => [] end))).
Proof. exact has_exact. Qed.
Print Assumptions C26_has_exact.

Example C26_example :
  let d := fst (act_at inject_Z ex_start [Sub (lit "general_settings")] (SetVal (lit "input_filename") (IString (lit "a.stl")))) in
  reachable Q inject_Z ex_dbl ex_start /\
  read Q d [Sub (lit "general_settings")] TString (lit "input_filename") = Ok (VString (lit "a.stl")) /\
  read Q d [Sub (lit "general_settings")] TString (lit "output_directory_name") = Ok (VString (lit "queso_output")) /\
  is_set_at Q d [Sub (lit "background_grid_settings")] (lit "grid_type") = Ok false /\
  read Q d [Sub (lit "background_grid_settings")] TGrid (lit "grid_type") = Error /\
  dict_has d (lit "conditions_settings_list") = true /\ dict_has d (lit "general_settings") = true /\ dict_has d (lit "grid_type") = false.
Proof. split; [exact (r_create _ _ _ _ _ ex_created)|]. repeat split; vm_compute; reflexivity. Qed.

(** *** C27 *)

Lemma check_exact D of_int dbl (d : dict D) : reachable D of_int dbl d ->
  (check_required d = Ok tt <-> complete D d) /\ (check_required d = Error <-> ~ complete D d).
Proof.
  intros R. destruct (check_required_spec D d (reachable_sound D of_int dbl d R)) as [[A B]|[A B]];
    rewrite A; split; split; intros H; try discriminate; try contradiction; auto.
Qed.
Theorem C27_required_check_exact : forall D of_int dbl (d : dict D), reachable D of_int dbl d ->
  (check_required d = Ok tt <-> complete D d) /\ (check_required d = Error <-> ~ complete D d).
Proof. exact check_exact. Qed.
Print Assumptions C27_required_check_exact.

(** After a successful check every required value of every dictionary can be
    read with its declared type. *)
Theorem C27_required_values_readable : forall D of_int dbl (d : dict D) p x ds n k t, reachable D of_int dbl d ->
  check_required d = Ok tt -> walk d p = Ok x ->
  d_data x = Some ds -> In (n, k) (ks_map (ds_keys ds)) -> k_req k = true -> k_type k = Some t ->
  exists w, get_required t ds k = Ok w /\ dict_get t x n = Ok w.
Proof.
  intros D of_int dbl d p x ds n k t R. apply required_readable, (reachable_sound D of_int dbl d R).
Qed.
Print Assumptions C27_required_values_readable.

Definition ex_complete : list (list step * action Q) :=
  let g := [Sub (lit "background_grid_settings")] in
  [ ([Sub (lit "general_settings")], SetVal (lit "input_filename") (IString (lit "a.stl")));
    (g, SetVal (lit "grid_type") (IGrid b_spline_grid));
    (g, SetVal (lit "lower_bound_xyz") (IPoint 0%Q 0%Q 0%Q)); (g, SetVal (lit "upper_bound_xyz") (IPoint 1%Q 1%Q 1%Q));
    (g, SetVal (lit "lower_bound_uvw") (IPoint 0%Q 0%Q 0%Q)); (g, SetVal (lit "upper_bound_uvw") (IPoint 1%Q 1%Q 1%Q));
    (g, SetVal (lit "polynomial_order") (IVec 2 2 2)); (g, SetVal (lit "number_of_elements") (IVec 4 3 2)) ].
Example C27_example :
  reachable Q inject_Z ex_dbl (run inject_Z ex_start ex_complete) /\
  check_required (run inject_Z ex_start ex_complete) = Ok tt /\
  check_required (run inject_Z ex_start (tl ex_complete)) = Error.
Proof.
  split.
  - unfold run, ex_complete. cbn [fold_left fst snd]. do 8 apply r_set. exact (r_create _ _ _ _ _ ex_created).
  - split; vm_compute; reflexivity.
Qed.
