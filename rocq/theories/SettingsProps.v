(** Property C29: what the settings check guarantees, and what it does not. *)
From Coq Require Import String Ascii Bool NArith ZArith QArith Arith List Lia.
From Verif Require Import KeysModel KeysProofs SettingsKeys DictModel DictProofs SettingsModel SettingsProofs.
From Verif Require GaussProps Ggq1dModel Ggq1dProps.
Import ListNotations.
Local Open Scope string_scope.
Local Open Scope nat_scope.

(** Settings made by the factory and changed by any history of assignments by
    name and appends: the check never has undefined behaviour and never
    terminates the program, and it accepts exactly the complete settings with
    admissible orders, method and grid type. *)
Lemma check_exact D of_int dbl (d : dict D) ops : create_settings dbl = Ok d -> Forall (user_op D) ops ->
  let s := run of_int d ops in
  (check_settings s = Ok tt /\ accepted D s) \/ (check_settings s = Error /\ ~ accepted D s).
Proof.
  intros E F. destruct (history_structure D of_int dbl d ops E F) as [S T]. apply check_settings_spec; assumption.
Qed.
Theorem C29_check_exact : forall D of_int dbl (d : dict D) ops, create_settings dbl = Ok d -> Forall (user_op D) ops ->
  let s := run of_int d ops in
  (check_settings s = Ok tt /\ accepted D s) \/ (check_settings s = Error /\ ~ accepted D s).
Proof. exact check_exact. Qed.
Print Assumptions C29_check_exact.

(** The one-dimensional rule used for one direction (see C18, C19):
    single_element.cpp / multiple_elements.cpp; [None] is an access outside
    the tables. *)
Definition rule (m : method) (order elements : nat) : option Ggq1dModel.qrule :=
  match m with
  | gauss => Ggq1dModel.get_gauss order Ggq1dModel.Gauss
  | gauss_reduced_1 => Ggq1dModel.get_gauss order Ggq1dModel.GaussReduced1
  | gauss_reduced_2 => Ggq1dModel.get_gauss order Ggq1dModel.GaussReduced2
  | ggq_optimal => Ggq1dModel.get_ggq order elements Ggq1dModel.Optimal
  | ggq_reduced_1 => Ggq1dModel.get_ggq order elements Ggq1dModel.Reduced1
  | ggq_reduced_2 => Ggq1dModel.get_ggq order elements Ggq1dModel.Reduced2
  end.

(** Accepted settings whose orders do not exceed 9 never lead to an access
    outside the rule tables, in any direction and for any number of elements. *)
Lemma rules_exist D of_int dbl (d : dict D) ops a b c m : create_settings dbl = Ok d -> Forall (user_op D) ops ->
  let s := run of_int d ops in
  check_settings s = Ok tt ->
  read D s [Sub (lit "background_grid_settings")] TVec (lit "polynomial_order") = Ok (VVec a b c) ->
  read D s [Sub (lit "non_trimmed_quadrature_rule_settings")] TMethod (lit "integration_method") = Ok (VMethod m) ->
  (a <= 9 /\ b <= 9 /\ c <= 9)%N ->
  forall o e, In o [a; b; c] -> 1 <= e -> exists l, rule m (N.to_nat o) e = Some l.
Proof.
  intros E F s C Ro Rm L o e Io He.
  destruct (check_exact D of_int dbl d ops E F) as [[_ A]|[A _]]; [|unfold s in C; congruence].
  destruct A as [_ [a' [b' [c' [m' [g' [Ro' [Rm' [_ A]]]]]]]]].
  fold s in Ro', Rm'. rewrite Ro in Ro'. rewrite Rm in Rm'. inversion Ro'; inversion Rm'; subst.
  destruct A as [A1 [A2 A3]].
  assert (B : (1 <= o <= 9)%N) by (destruct Io as [<- | [<- | [<- | []]]]; lia).
  assert (B2 : m' = gauss_reduced_2 -> (2 <= o)%N).
  { intros H. specialize (A2 H). destruct Io as [<- | [<- | [<- | []]]]; lia. }
  assert (B3 : is_ggq m' -> (2 <= o <= 4)%N).
  { intros H. specialize (A3 H). destruct Io as [<- | [<- | [<- | []]]]; lia. }
  unfold is_ggq in B3.
  destruct m'; cbn [rule].
  1-3: apply GaussProps.get_gauss_some; cbn [GaussProps.order_ok]; try specialize (B2 eq_refl); lia.
  all: match goal with |- exists l, Ggq1dModel.get_ggq ?x ?y ?z = Some l =>
         destruct (Ggq1dProps.C18_ggq_rules_well_formed x y z) as [l [H _]]; [|exact He|exists l; exact H] end;
       assert (2 <= o <= 4)%N by (apply B3; auto); lia.
Qed.
Theorem C29_rules_exist : forall D of_int dbl (d : dict D) ops a b c m, create_settings dbl = Ok d -> Forall (user_op D) ops ->
  let s := run of_int d ops in
  check_settings s = Ok tt ->
  read D s [Sub (lit "background_grid_settings")] TVec (lit "polynomial_order") = Ok (VVec a b c) ->
  read D s [Sub (lit "non_trimmed_quadrature_rule_settings")] TMethod (lit "integration_method") = Ok (VMethod m) ->
  (a <= 9 /\ b <= 9 /\ c <= 9)%N ->
  forall o e, In o [a; b; c] -> 1 <= e -> exists l, rule m (N.to_nat o) e = Some l.
Proof. exact rules_exist. Qed.
Print Assumptions C29_rules_exist.

(** With at least one element per direction the loops of the flood fill end. *)
Lemma loops_end n : (1 <= n < 2 ^ 64)%N -> loop_condition n n = false.
Proof.
  intros H. unfold loop_condition, last_index. apply N.leb_gt.
  assert (M : (2 ^ 64 = 18446744073709551616)%N) by reflexivity. rewrite M in *.
  replace (n + (18446744073709551616 - 1))%N with ((n - 1) + 1 * 18446744073709551616)%N by lia.
  rewrite N.mod_add by discriminate. rewrite N.mod_small by lia. lia.
Qed.
Theorem C29_loops_end : forall n, (1 <= n < 2 ^ 64)%N -> loop_condition n n = false.
Proof. exact loops_end. Qed.
Print Assumptions C29_loops_end.

(** The settings made by the factory: exactly these entries are set. *)
Definition defaults {D} (dbl : Q -> D) : list (text * text * ty * value D) :=
  [ (lit "general_settings", lit "output_directory_name", TString, VString (lit "queso_output"));
    (lit "general_settings", lit "echo_level", TIndex, VIndex 1);
    (lit "general_settings", lit "write_output_to_file", TBool, VBool true);
    (lit "trimmed_quadrature_rule_settings", lit "moment_fitting_residual", TDouble, VDouble (dbl (1 # 10000000000)));
    (lit "trimmed_quadrature_rule_settings", lit "min_element_volume_ratio", TDouble, VDouble (dbl (1 # 1000)));
    (lit "trimmed_quadrature_rule_settings", lit "min_num_boundary_triangles", TIndex, VIndex 100);
    (lit "trimmed_quadrature_rule_settings", lit "neglect_elements_if_stl_is_flawed", TBool, VBool true);
    (lit "non_trimmed_quadrature_rule_settings", lit "integration_method", TMethod, VMethod gauss) ].
Definition set_entries {D} (d : dict D) : list (text * text) :=
  match d_subs d with
  | Some (ks, l) => flat_map (fun e => match nth_error l (k_index (snd e)) with
      | Some (Some (Dict (Some ds) _ _)) => flat_map (fun f => match is_set ds (fst f) with Ok true => [(fst e, fst f)] | _ => [] end) (ks_map (ds_keys ds))
      | _ => [] end) (ks_map ks)
  | None => []
  end.
Lemma set_entries_all D (d : dict D) s n : is_set_at D d [Sub s] n = Ok true -> In (s, n) (set_entries d).
Proof.
  unfold is_set_at, set_entries. cbn [walk bind]. destruct d as [data [[ks l]|] lists]; [|discriminate]. cbn [go d_subs].
  destruct (pget_key ks s) as [k|] eqn:K; [|discriminate]. destruct (nth_error l (k_index k)) as [[x|]|] eqn:N; try discriminate. cbn [bind].
  unfold dict_is_set. destruct x as [[ds|] a b]; [|discriminate]. cbn [d_data]. intros H. apply in_flat_map. exists (s, k). split; [exact (find_key_some _ _ _ K)|]. cbn [fst snd]. rewrite N.
  apply in_flat_map. assert (H' := H). unfold is_set in H'. destruct (pget_key (ds_keys ds) n) as [k'|] eqn:K'; [|discriminate H']. exists (n, k'). split; [exact (find_key_some _ _ _ K')|]. cbn [fst]. rewrite H. left. reflexivity.
Qed.
Lemma factory_defaults D dbl (d : dict D) : create_settings dbl = Ok d ->
  (forall s n t v, In (s, n, t, v) (defaults dbl) -> read D d [Sub s] t n = Ok v) /\
  (forall s n, is_set_at D d [Sub s] n = Ok true -> exists t v, In (s, n, t, v) (defaults dbl)).
Proof.
  intros E. assert (A : match create_settings dbl with Ok d => map (fun e => read D d [Sub (fst (fst (fst e)))] (snd (fst e)) (snd (fst (fst e)))) (defaults dbl) = map (fun e => Ok (snd e)) (defaults dbl) | _ => False end) by (vm_compute; reflexivity).
  assert (B : match create_settings dbl with Ok d => forallb (fun e => existsb (fun f => text_eqb (fst e) (fst (fst (fst f))) && text_eqb (snd e) (snd (fst (fst f)))) (defaults dbl)) (set_entries d) = true | _ => False end) by (vm_compute; reflexivity).
  rewrite E in A, B. split.
  - intros s n t v I. assert (Q : forall l : list (text * text * ty * value D), map (fun e => read D d [Sub (fst (fst (fst e)))] (snd (fst e)) (snd (fst (fst e)))) l = map (fun e => Ok (snd e)) l -> In (s, n, t, v) l -> read D d [Sub s] t n = Ok v).
    { induction l as [|e l IH]; intros H; [intros []|]. cbn [map] in H. injection H as H1 H2. intros [-> | J]; [exact H1|exact (IH H2 J)]. }
    exact (Q _ A I).
  - intros s n H. apply set_entries_all in H. rewrite forallb_forall in B. specialize (B _ H). apply existsb_exists in B. destruct B as [[[[s' n'] t] v] [I J]]. cbn [fst snd] in J. apply andb_true_iff in J. rewrite !text_eqb_eq in J. destruct J as [-> ->]. exists t, v. exact I.
Qed.
Theorem C29_factory_defaults : forall D dbl (d : dict D), create_settings dbl = Ok d ->
  (forall s n t v, In (s, n, t, v) (defaults dbl) -> read D d [Sub s] t n = Ok v) /\
  (forall s n, is_set_at D d [Sub s] n = Ok true -> exists t v, In (s, n, t, v) (defaults dbl)).
Proof. exact factory_defaults. Qed.
Print Assumptions C29_factory_defaults.

(** A history that sets all required values. *)
Definition settings_with (order elements : N * N * N) (m : method) : list (list step * action Q) :=
  let '(p, q, r) := order in
  let '(i, j, k) := elements in
  let g := [Sub (lit "background_grid_settings")] in
  [ ([Sub (lit "general_settings")], SetVal (lit "input_filename") (IString (lit "a.stl")));
    (g, SetVal (lit "grid_type") (IGrid b_spline_grid));
    (g, SetVal (lit "lower_bound_xyz") (IPoint 0%Q 0%Q 0%Q)); (g, SetVal (lit "upper_bound_xyz") (IPoint 1%Q 1%Q 1%Q));
    (g, SetVal (lit "lower_bound_uvw") (IPoint 0%Q 0%Q 0%Q)); (g, SetVal (lit "upper_bound_uvw") (IPoint 1%Q 1%Q 1%Q));
    (g, SetVal (lit "polynomial_order") (IVec p q r)); (g, SetVal (lit "number_of_elements") (IVec i j k));
    ([Sub (lit "non_trimmed_quadrature_rule_settings")], SetVal (lit "integration_method") (IMethod m)) ].
Definition ex_dbl : Q -> Q := fun q => q.
Definition ex_start : dict Q := match create_settings ex_dbl with Ok d => d | _ => new_dict None None None end.
Lemma ex_created : create_settings ex_dbl = Ok ex_start.
Proof. vm_compute. reflexivity. Qed.
Lemma settings_with_user o e m : Forall (user_op Q) (settings_with o e m).
Proof. destruct o as [[p q] r], e as [[i j] k]. unfold settings_with. repeat (constructor; [split; exact I|]). constructor. Qed.

Definition g_at := [Sub (lit "background_grid_settings")].
Example C29_example :
  create_settings ex_dbl = Ok ex_start /\
  check_settings (run inject_Z ex_start (settings_with (2, 3, 4)%N (5, 6, 7)%N ggq_reduced_1)) = Ok tt /\
  check_settings (run inject_Z ex_start (settings_with (2, 1, 4)%N (5, 6, 7)%N ggq_reduced_1)) = Error /\
  check_settings (run inject_Z ex_start (settings_with (2, 5, 4)%N (5, 6, 7)%N ggq_optimal)) = Error /\
  check_settings (run inject_Z ex_start (settings_with (2, 0, 4)%N (5, 6, 7)%N gauss)) = Error /\
  check_settings (run inject_Z ex_start (settings_with (2, 1, 4)%N (5, 6, 7)%N gauss_reduced_2)) = Error.
Proof. split; [exact ex_created|]. repeat split; vm_compute; reflexivity. Qed.

(** Without the bound on the orders the claim is false: order 10 is accepted
    and read outside the Gauss tables. *)
Lemma large_order : exists ops, Forall (user_op Q) ops /\
  let s := run inject_Z ex_start ops in
  check_settings s = Ok tt /\
  read Q s g_at TVec (lit "polynomial_order") = Ok (VVec 2 10 2) /\
  read Q s [Sub (lit "non_trimmed_quadrature_rule_settings")] TMethod (lit "integration_method") = Ok (VMethod gauss) /\
  rule gauss 10 1 = None.
Proof.
  exists (settings_with (2, 10, 2)%N (3, 3, 3)%N gauss). split; [apply settings_with_user|].
  split; [|split; [|split]]; vm_compute; reflexivity.
Qed.
Theorem C29_large_order_refuted : exists ops, Forall (user_op Q) ops /\
  let s := run inject_Z ex_start ops in
  check_settings s = Ok tt /\
  read Q s g_at TVec (lit "polynomial_order") = Ok (VVec 2 10 2) /\
  read Q s [Sub (lit "non_trimmed_quadrature_rule_settings")] TMethod (lit "integration_method") = Ok (VMethod gauss) /\
  rule gauss 10 1 = None.
Proof. exact large_order. Qed.
Print Assumptions C29_large_order_refuted.

(** Zero elements in a direction are accepted; the loops of the flood fill over
    that direction then never end (their condition holds for every 64 bit
    index) and already the first flag read does not exist. *)
Lemma no_elements : exists ops, Forall (user_op Q) ops /\
  let s := run inject_Z ex_start ops in
  check_settings s = Ok tt /\
  read Q s g_at TVec (lit "number_of_elements") = Ok (VVec 4 0 3) /\
  (forall i, (i < 2 ^ 64)%N -> loop_condition 0 i = true) /\
  num_flags (4, 0, 3)%N = 0%N.
Proof.
  exists (settings_with (2, 2, 2)%N (4, 0, 3)%N gauss). split; [apply settings_with_user|].
  split; [vm_compute; reflexivity|]. split; [vm_compute; reflexivity|]. split; [|reflexivity].
  intros i H. unfold loop_condition. apply N.leb_le.
  assert (M : (2 ^ 64 = 18446744073709551616)%N) by reflexivity. rewrite M in H.
  change (last_index 0) with 18446744073709551615%N. lia.
Qed.
Theorem C29_no_elements_refuted : exists ops, Forall (user_op Q) ops /\
  let s := run inject_Z ex_start ops in
  check_settings s = Ok tt /\
  read Q s g_at TVec (lit "number_of_elements") = Ok (VVec 4 0 3) /\
  (forall i, (i < 2 ^ 64)%N -> loop_condition 0 i = true) /\
  num_flags (4, 0, 3)%N = 0%N.
Proof. exact no_elements. Qed.
Print Assumptions C29_no_elements_refuted.
