(** Property C64: settings written to a file and read again. *)
From Coq Require Import String Ascii Bool NArith ZArith QArith Arith List Lia.
From Verif Require Import KeysModel KeysProofs SettingsKeys DictModel DictProofs SettingsModel SettingsProofs
  JsonModel JsonSpec JsonSpecProofs JsonProofs JsonIoModel JsonIoProofs JsonIoSafe.
Import ListNotations.
Local Open Scope nat_scope.

(** Settings made by the factory and changed by any history of assignments and
    appends: if they are saveable, the file written for them is read as exactly
    these settings (all values and all unset entries, the sub-dictionaries and
    the conditions in their order). *)
Theorem C64_settings_files_round_trip : forall D of_int dbl show to_float (d : dict D) ops,
  create_settings dbl = Ok d -> Forall (user_op D) ops -> saveable D of_int show to_float (run of_int d ops) ->
  exists t, print_dict show (run of_int d ops) = Ok t /\ read_settings of_int dbl to_float t = Ok (run of_int d ops).
Proof. intros D of_int dbl show to_float d ops. apply saved_and_read. Qed.
Print Assumptions C64_settings_files_round_trip.

(** Reading a file, whatever its contents, gives settings with the declared
    structure and typed values, or throws; it has no undefined behaviour. *)
Theorem C64_read_is_safe : forall D of_int dbl to_float t,
  (exists d : dict D, read_settings of_int dbl to_float t = Ok d /\ sound D d /\ settings_structure D d) \/
  read_settings of_int dbl to_float t = Error (A := dict D).
Proof. intros D of_int dbl to_float t. apply read_settings_safe. Qed.
Print Assumptions C64_read_is_safe.

(** Without conditions the file written can never be read. *)
Theorem C64_no_conditions_refuted : forall D of_int dbl show to_float (d : dict D) ops,
  create_settings dbl = Ok d -> Forall (user_op D) ops ->
  values_are D (value_printable D show) (run of_int d ops) -> conditions_made D (run of_int d ops) ->
  (exists ks ll, d_lists (run of_int d ops) = Some (ks, ll) /\ In [] ll) ->
  exists t, print_dict show (run of_int d ops) = Ok t /\ read_settings of_int dbl to_float t = Error.
Proof. intros D of_int dbl show to_float d ops. apply no_conditions. Qed.
Print Assumptions C64_no_conditions_refuted.

(** *** A concrete representation of doubles: integers, and decimal texts. *)
Definition dec := (Z + text)%type.
Definition dec_int (z : Z) : dec := inl z.
Definition dec_float (t : text) : dec := inr t.
Definition show_z (z : Z) : text :=
  match z with Zneg p => lit "-" ++ show_index (Npos p) | _ => show_index (Z.to_N z) end.
Definition dec_show (d : dec) : text := match d with inl z => show_z z | inr t => t end.
Fixpoint zeros (k : nat) (p : N) : N :=
  match k with O => 0%N | S k => if (p <? 10)%N then 0%N else (1 + zeros k (p / 10))%N end.
(** 1/10^k as 1e-k *)
Definition dec_dbl (q : Q) : dec := inr (lit "1e-" ++ show_index (zeros 20 (Npos (Qden q)))).
Definition dec_eqb (a b : dec) : bool :=
  match a, b with inl x, inl y => (x =? y)%Z | inr s, inr t => text_eqb s t | _, _ => false end.
Lemma dec_eqb_eq a b : dec_eqb a b = true -> a = b.
Proof. destruct a, b; cbn; try discriminate; intros H; [apply Z.eqb_eq in H|apply text_eqb_eq in H]; subst; reflexivity. Qed.
Definition survivesb (v : value dec) : bool :=
  let ok d := dec_eqb (double_of dec dec_int dec_float (dec_show d)) d in
  let small n := (n <? 2 ^ 64)%N in
  match v with
  | VPoint a b c => ok a && ok b && ok c
  | VVec a b c => small a && small b && small c
  | VIndex n => small n
  | VDouble d => ok d && match number dec_float (dec_show d) with inl z => ((0 <=? z) && (z <? 2 ^ 64))%Z | inr _ => true end
  | VString s => negb (text_eqb s (lit "Not Set."))
  | _ => true
  end.
Lemma survivesb_ok v : survivesb v = true -> survives dec dec_int dec_show dec_float v.
Proof.
  unfold survivesb, survives. destruct v; intros H; try exact I; rewrite ?andb_true_iff in H; rewrite ?N.ltb_lt in H.
  - destruct H as [[A B] C]. split; [|split]; apply dec_eqb_eq; assumption.
  - tauto.
  - destruct H as [A B]. split; [apply dec_eqb_eq, A|]. intros z E. rewrite E in B. apply andb_true_iff in B. rewrite Z.leb_le, Z.ltb_lt in B. exact B.
  - exact H.
  - apply negb_true_iff in H. intros E. apply text_eqb_eq in E. congruence.
Qed.

Lemma printableb_ok v : value_printableb dec dec_show v = true -> value_printable dec dec_show v.
Proof. destruct v; intros H; try exact I; cbn in *; auto. rewrite !andb_true_iff in H. tauto. Qed.

Definition io_cond_ops : list (list step * action dec) :=
  [([], SetVal (lit "condition_id") (IIndex 3)); ([], SetVal (lit "input_filename") (IString (lit "c.stl")))].
Definition io_cond : dict dec := run dec_int (new_dict (Some ConditionSettings_Values) None None) io_cond_ops.
Definition io_at (n : string) := [Sub (lit n)].
(** A history: required values, a negative coordinate, a condition that is
    changed after it was appended, and a second one. *)
Definition io_grid : list (list step * action dec) :=
  [ (io_at "general_settings", SetVal (lit "input_filename") (IString (lit "a.stl")));
    (io_at "background_grid_settings", SetVal (lit "grid_type") (IGrid hexahedral_fe_grid));
    (io_at "background_grid_settings", SetVal (lit "lower_bound_xyz") (IPoint (inl (-3)%Z) (inr (lit "-2.5")) (inl 0%Z)));
    (io_at "background_grid_settings", SetVal (lit "upper_bound_xyz") (IPoint (inl 1%Z) (inr (lit "1.25e+10")) (inl 7%Z)));
    (io_at "background_grid_settings", SetVal (lit "lower_bound_uvw") (IPoint (inl 0%Z) (inl 0%Z) (inl 0%Z)));
    (io_at "background_grid_settings", SetVal (lit "upper_bound_uvw") (IPoint (inl 1%Z) (inl 1%Z) (inl 1%Z)));
    (io_at "background_grid_settings", SetVal (lit "polynomial_order") (IVec 2 3 4));
    (io_at "background_grid_settings", SetVal (lit "number_of_elements") (IVec 5 6 7));
    (io_at "non_trimmed_quadrature_rule_settings", SetVal (lit "integration_method") (IMethod gauss_reduced_1)) ].
Definition io_ops : list (list step * action dec) := io_grid ++
  [ ([], Append (lit "conditions_settings_list") (Some io_cond));
    ([Item (lit "conditions_settings_list") 0], SetVal (lit "condition_type") (IString (lit "PenaltySupportCondition")));
    ([Item (lit "conditions_settings_list") 0], SetVal (lit "penalty_factor") (IDouble (inr (lit "1e+10"))));
    ([], Append (lit "conditions_settings_list") (Some io_cond));
    ([Item (lit "conditions_settings_list") 1], SetVal (lit "modulus") (IDouble (inl 5%Z))) ].
Definition io_start : dict dec := match create_settings dec_dbl with Ok d => d | _ => new_dict None None None end.
Lemma io_created : create_settings dec_dbl = Ok io_start.
Proof. vm_compute. reflexivity. Qed.
Lemma io_cond_sound : sound dec io_cond.
Proof. apply run_ok; [apply condition_sound|]. unfold io_cond_ops. repeat (constructor; [split; exact I|]). constructor. Qed.
Lemma io_grid_user : Forall (user_op dec) io_grid.
Proof. unfold io_grid. repeat (constructor; [split; exact I|]). constructor. Qed.
Lemma io_user : Forall (user_op dec) io_ops.
Proof.
  unfold io_ops. apply Forall_app. split; [exact io_grid_user|].
  repeat (constructor; [split; [exact I|cbn [snd action_sound]; try exact I; intros y E; apply some_inv in E; subst y; exact io_cond_sound]|]). constructor.
Qed.

Definition io_s : dict dec := run dec_int io_start io_ops.
Lemma io_saveable : saveable dec dec_int dec_show dec_float io_s.
Proof.
  split; [|split; [|split]].
  - apply (all_values_ok dec (value_printableb dec dec_show)); [exact printableb_ok|vm_compute; reflexivity].
  - apply (all_values_ok dec survivesb); [exact survivesb_ok|vm_compute; reflexivity].
  - assert (A : match d_lists io_s with Some (_, [[Some a; Some b]]) => shape dec a = leaf_shape ConditionSettings_Values /\ shape dec b = leaf_shape ConditionSettings_Values | _ => False end)
      by (vm_compute; split; reflexivity).
    intros ks ll l o L. rewrite L in A. destruct ll as [|[|[x|] [|[y|] [|? ?]]] [|? ?]]; try contradiction. destruct A as [A B].
    intros [<- | []] [<- | [<- | []]]; eexists; split; try reflexivity; assumption.
  - assert (A : match d_lists io_s with Some (_, ll) => forallb (fun l => match l with [] => false | _ => true end) ll | None => false end = true) by (vm_compute; reflexivity).
    intros ks ll l L I ->. rewrite L in A. rewrite forallb_forall in A. discriminate (A [] I).
Qed.
Example C64_example : create_settings dec_dbl = Ok io_start /\ Forall (user_op dec) io_ops /\ saveable dec dec_int dec_show dec_float io_s /\
  check_settings io_s = Ok tt /\
  match print_dict dec_show io_s with Ok t => read_settings dec_int dec_dbl dec_float t = Ok io_s | _ => False end /\
  read dec io_s [Item (lit "conditions_settings_list") 1] TDouble (lit "modulus") = Ok (VDouble (inl 5%Z)).
Proof. split; [exact io_created|]. split; [exact io_user|]. split; [exact io_saveable|]. split; [|split]; vm_compute; reflexivity. Qed.

(** Complete settings without conditions, accepted by the check, meet the
    hypotheses of [C64_no_conditions_refuted]. *)
Example C64_no_conditions_example :
  check_settings (run dec_int io_start io_grid) = Ok tt /\ Forall (user_op dec) io_grid /\
  values_are dec (value_printable dec dec_show) (run dec_int io_start io_grid) /\ conditions_made dec (run dec_int io_start io_grid) /\
  exists ks ll, d_lists (run dec_int io_start io_grid) = Some (ks, ll) /\ In [] ll.
Proof.
  assert (L : exists ks, d_lists (run dec_int io_start io_grid) = Some (ks, [[]])) by (eexists; vm_compute; reflexivity).
  split; [vm_compute; reflexivity|]. split; [exact io_grid_user|]. split; [|split].
  - apply (all_values_ok dec (value_printableb dec dec_show)); [exact printableb_ok|vm_compute; reflexivity].
  - destruct L as [ks L]. intros ks' ll l o E I Io. rewrite L in E. apply some_inv, pair_inv in E. destruct E as [_ <-]. destruct I as [<- | []]. destruct Io.
  - destruct L as [ks L]. exists ks, [[]]. split; [exact L|left; reflexivity].
Qed.

(** Further settings that do not come back.  A modulus of -5: the text -5 is an
    integer in Python, the overload chosen for it is the one for bool, and
    reading fails. *)
Definition with_condition (n : string) (i : input dec) : dict dec :=
  run dec_int io_start (io_grid ++ [([], Append (lit "conditions_settings_list") (Some io_cond)); ([Item (lit "conditions_settings_list") 0], SetVal (lit n) i)]).
Lemma negative_integer : check_settings (with_condition "modulus" (IDouble (inl (-5)%Z))) = Ok tt /\
  exists t, print_dict dec_show (with_condition "modulus" (IDouble (inl (-5)%Z))) = Ok t /\ read_settings dec_int dec_dbl dec_float t = Error.
Proof. split; [vm_compute; reflexivity|]. eexists. split; [vm_compute; reflexivity|vm_compute; reflexivity]. Qed.
Theorem C64_negative_integer_refuted : check_settings (with_condition "modulus" (IDouble (inl (-5)%Z))) = Ok tt /\
  exists t, print_dict dec_show (with_condition "modulus" (IDouble (inl (-5)%Z))) = Ok t /\ read_settings dec_int dec_dbl dec_float t = Error.
Proof. exact negative_integer. Qed.
Print Assumptions C64_negative_integer_refuted.

(** The string of unset entries: it is read, but as an entry that is not set. *)
Definition io_item := [Item (lit "conditions_settings_list") 0].
Lemma not_set_string : exists t s, print_dict dec_show (with_condition "condition_type" (IString (lit "Not Set."))) = Ok t /\
  read_settings dec_int dec_dbl dec_float t = Ok s /\
  is_set_at dec (with_condition "condition_type" (IString (lit "Not Set."))) io_item (lit "condition_type") = Ok true /\
  is_set_at dec s io_item (lit "condition_type") = Ok false.
Proof. do 2 eexists. split; [vm_compute; reflexivity|]. split; [vm_compute; reflexivity|]. split; vm_compute; reflexivity. Qed.
Theorem C64_not_set_string_refuted : exists t s, print_dict dec_show (with_condition "condition_type" (IString (lit "Not Set."))) = Ok t /\
  read_settings dec_int dec_dbl dec_float t = Ok s /\
  is_set_at dec (with_condition "condition_type" (IString (lit "Not Set."))) io_item (lit "condition_type") = Ok true /\
  is_set_at dec s io_item (lit "condition_type") = Ok false.
Proof. exact not_set_string. Qed.
Print Assumptions C64_not_set_string_refuted.

(** Two doubles with the same text (the file has ten digits) give the same file,
    whatever the representation of doubles: at most one of the two settings can
    be read back. *)
Lemma same_text D of_int dbl show (d : dict D) (a b : D) : create_settings dbl = Ok d -> show a = show b ->
  let s x := run of_int d [([Sub (lit "trimmed_quadrature_rule_settings")], SetVal (lit "moment_fitting_residual") (IDouble x))] in
  print_dict show (s a) = print_dict show (s b) /\
  forall x, read D (s x) [Sub (lit "trimmed_quadrature_rule_settings")] TDouble (lit "moment_fitting_residual") = Ok (VDouble x).
Proof.
  intros E H. assert (Q : create_settings dbl = Ok d -> d = match create_settings dbl with Ok d => d | _ => d end) by (intros ->; reflexivity).
  rewrite (Q E). clear Q E. split; [vm_compute; rewrite H; reflexivity|intros x; vm_compute; reflexivity].
Qed.
Theorem C64_precision_refuted : forall D of_int dbl show (d : dict D) (a b : D), create_settings dbl = Ok d -> show a = show b ->
  let s x := run of_int d [([Sub (lit "trimmed_quadrature_rule_settings")], SetVal (lit "moment_fitting_residual") (IDouble x))] in
  print_dict show (s a) = print_dict show (s b) /\
  forall x, read D (s x) [Sub (lit "trimmed_quadrature_rule_settings")] TDouble (lit "moment_fitting_residual") = Ok (VDouble x).
Proof. exact same_text. Qed.
Print Assumptions C64_precision_refuted.
