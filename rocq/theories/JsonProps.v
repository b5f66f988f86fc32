(** Property C30: the text of a dictionary. *)
From Coq Require Import String Ascii Bool NArith ZArith QArith Arith List Lia Permutation.
From Verif Require Import KeysModel KeysProofs SettingsKeys DictModel DictProofs SettingsModel SettingsProofs DictProps
  JsonModel JsonSpec JsonSpecProofs JsonProofs.
Import ListNotations.
Local Open Scope nat_scope.

Lemma create_names D dbl n (d : dict D) : create dbl n = Ok d -> namesb D d = true.
Proof.
  assert (A : match create_settings dbl with Ok d => namesb D d | _ => true end = true) by (vm_compute; reflexivity).
  assert (B : match create_model_info dbl with Ok d => namesb D d | _ => true end = true) by (vm_compute; reflexivity).
  assert (C : match (create_condition_settings : res (dict D)) with Ok d => namesb D d | _ => true end = true) by (vm_compute; reflexivity).
  assert (E : match (create_condition_info : res (dict D)) with Ok d => namesb D d | _ => true end = true) by (vm_compute; reflexivity).
  assert (G : forall r, match r with Ok d => namesb D d | _ => true end = true -> r = Ok d -> namesb D d = true)
    by (intros r H ->; exact H).
  unfold create. destruct (text_eqb n (lit "Settings")); [apply G, A|].
  destruct (text_eqb n (lit "ConditionSettings")); [apply G, C|].
  destruct (text_eqb n (lit "ModelInfo")); [apply G, B|].
  destruct (text_eqb n (lit "ConditionInfo")); [apply G, E | discriminate].
Qed.
Lemma reachable_names D of_int dbl (d : dict D) : reachable D of_int dbl d -> namesb D d = true.
Proof.
  induction 1 as [n d C|d p n v H IH|d p n x H IH Hx IHx|d p n H IH|d p n x H IH Hx IHx|d p n H IH].
  - exact (create_names D dbl n d C).
  - apply names_act_at; [exact IH | exact I].
  - apply names_act_at; [exact IH | exact IHx].
  - apply names_act_at; [exact IH | reflexivity].
  - apply names_act_at; [exact IH | exact IHx].
  - apply names_act_at; [exact IH | reflexivity].
Qed.

(** The text written for a dictionary is a JSON text, and the only JSON value it
    denotes is the object with the fields of the dictionary. *)
Lemma output_json D of_int dbl show (d : dict D) : reachable D of_int dbl d -> writable D show d ->
  exists t, print_dict show d = Ok t /\ json (JObj (fields D show d)) t /\ parse t = Some (JObj (fields D show d)) /\
    forall v, json v t -> v = JObj (fields D show d).
Proof.
  intros R W.
  destruct (print_dict_ok D show d (reachable_sound D of_int dbl d R)
    (writable_printable D show d (reachable_names D of_int dbl d R) W)) as [t [E J]].
  exists t. repeat split; try assumption; [exact (parse_complete _ _ J) | intros v J'; exact (json_unambiguous _ _ _ J' J)].
Qed.
Theorem C30_output_is_json : forall D of_int dbl show (d : dict D), reachable D of_int dbl d -> writable D show d ->
  exists t, print_dict show d = Ok t /\ json (JObj (fields D show d)) t /\ parse t = Some (JObj (fields D show d)) /\
    forall v, json v t -> v = JObj (fields D show d).
Proof. exact output_json. Qed.
Print Assumptions C30_output_is_json.

(** The fields are the declared names, each exactly once ... *)
Theorem C30_every_entry_once : forall D of_int dbl show (d : dict D) p x, reachable D of_int dbl d -> walk d p = Ok x ->
  Permutation (map fst (fields D show x))
    (map chars_of
      ((match d_data x with Some ds => ks_names (ds_keys ds) | None => [] end) ++
       (match d_subs x with Some (ks, _) => ks_names ks | None => [] end) ++
       (match d_lists x with Some (ks, _) => ks_names ks | None => [] end))).
Proof.
  intros D of_int dbl show d p x R W. apply fields_perm. intros q y V.
  apply (reachable_sound D of_int dbl d R (p ++ q) y). clear - W V. revert d W.
  induction p as [|s p IH]; intros d W; simpl in *; [inversion W; subst; exact V|].
  destruct (go d s) as [d'| | |]; simpl in *; try discriminate. apply IH, W.
Qed.
Print Assumptions C30_every_entry_once.

(** ... with the values that are read by these names: the values set, a note
    for the others, the sub-dictionaries and the entries of the lists. *)
Lemma entries_shown D of_int dbl show (d : dict D) p x n : reachable D of_int dbl d -> walk d p = Ok x ->
  (forall t w, dict_get t x n = Ok w -> In (chars_of n, value_json D show w) (fields D show x)) /\
  (dict_is_set x n = Ok false -> In (chars_of n, JStr (chars_of (lit "Not Set."))) (fields D show x)) /\
  (forall y, go x (Sub n) = Ok y -> In (chars_of n, JObj (fields D show y)) (fields D show x)) /\
  (forall i y, go x (Item n i) = Ok y ->
     exists l, In (chars_of n, JArr l) (fields D show x) /\ nth_error l i = Some (JObj (fields D show y))).
Proof.
  intros R W.
  assert (S : sound D x).
  { intros q y V. apply (reachable_sound D of_int dbl d R (p ++ q) y). clear - W V. revert d W.
    induction p as [|s p IH]; intros d W; simpl in *; [inversion W; subst; exact V|].
    destruct (go d s) as [d'| | |]; simpl in *; try discriminate. apply IH, W. }
  destruct (fields_value D show x n S) as [A B]. split; [exact A|]. split; [exact B|].
  split; [apply fields_sub | apply fields_item].
Qed.
Theorem C30_entries_are_shown : forall D of_int dbl show (d : dict D) p x n, reachable D of_int dbl d -> walk d p = Ok x ->
  (forall t w, dict_get t x n = Ok w -> In (chars_of n, value_json D show w) (fields D show x)) /\
  (dict_is_set x n = Ok false -> In (chars_of n, JStr (chars_of (lit "Not Set."))) (fields D show x)) /\
  (forall y, go x (Sub n) = Ok y -> In (chars_of n, JObj (fields D show y)) (fields D show x)) /\
  (forall i y, go x (Item n i) = Ok y ->
     exists l, In (chars_of n, JArr l) (fields D show x) /\ nth_error l i = Some (JObj (fields D show y))).
Proof. exact entries_shown. Qed.
Print Assumptions C30_entries_are_shown.

(** The settings of [C25_example] with a condition in the list; doubles are
    shown as one digit. *)
Definition ex_cond : dict Q := match (create_condition_settings : res (dict Q)) with Ok d => d | _ => new_dict None None None end.
Definition ex_show : Q -> text := fun q => show_index (Z.to_N (Qnum q)).
Definition ex_out : dict Q :=
  fst (act_at inject_Z (run inject_Z ex_start ex_ops) [] (Append (lit "conditions_settings_list") (Some ex_cond))).
Lemma ex_out_reachable : reachable Q inject_Z ex_dbl ex_out.
Proof.
  apply r_append.
  - unfold run, ex_ops. cbn [fold_left fst snd]. do 5 apply r_set. exact (r_create _ _ _ _ _ ex_created).
  - apply (r_create _ _ _ (lit "ConditionSettings")). vm_compute. reflexivity.
Qed.
Example C30_example : reachable Q inject_Z ex_dbl ex_out /\ writable Q ex_show ex_out /\
  match print_dict ex_show ex_out with
  | Ok t => length t = 1230 /\ parse t = Some (JObj (fields Q ex_show ex_out))
  | _ => False
  end /\
  (exists x, walk ex_out [Item (lit "conditions_settings_list") 0] = Ok x) /\
  In (chars_of (lit "echo_level"), JNum (lit "2"))
    (match walk ex_out [Sub (lit "general_settings")] with Ok x => fields Q ex_show x | _ => [] end).
Proof.
  split; [exact ex_out_reachable|].
  split; [intros p x; apply writableb_ok; vm_compute; reflexivity|].
  split; [vm_compute; split; reflexivity|]. split.
  - eexists. vm_compute. reflexivity.
  - vm_compute. tauto.
Qed.

(** Without the guard the claim is false.  A string with a quote (for example
    a file name) and a number that is not finite give a text that is not JSON. *)
Lemma string_with_quote : exists d t, reachable Q inject_Z ex_dbl d /\ print_dict ex_show d = Ok t /\ forall v, ~ json v t.
Proof.
  exists (fst (act_at inject_Z ex_start [Sub (lit "general_settings")] (SetVal (lit "input_filename") (IString (lit "a""b.stl"))))).
  eexists. split; [apply r_set; exact (r_create _ _ _ _ _ ex_created)|].
  split; [vm_compute; reflexivity|]. intros v J. apply parse_complete in J. vm_compute in J. discriminate J.
Qed.
Theorem C30_string_refuted : exists d t, reachable Q inject_Z ex_dbl d /\ print_dict ex_show d = Ok t /\ forall v, ~ json v t.
Proof. exact string_with_quote. Qed.
Print Assumptions C30_string_refuted.

Lemma number_nan : exists (show : Q -> text) d t, reachable Q inject_Z ex_dbl d /\ show 0%Q = lit "nan" /\
  print_dict show d = Ok t /\ forall v, ~ json v t.
Proof.
  exists (fun q => if Qeq_bool q 0 then lit "nan" else lit "1").
  exists (fst (act_at inject_Z ex_cond [] (SetVal (lit "modulus") (IDouble 0%Q)))).
  eexists. split; [apply r_set; apply (r_create _ _ _ (lit "ConditionSettings")); vm_compute; reflexivity|].
  split; [reflexivity|]. split; [vm_compute; reflexivity|].
  intros v J. apply parse_complete in J. vm_compute in J. discriminate J.
Qed.
Theorem C30_number_refuted : exists (show : Q -> text) d t, reachable Q inject_Z ex_dbl d /\ show 0%Q = lit "nan" /\
  print_dict show d = Ok t /\ forall v, ~ json v t.
Proof. exact number_nan. Qed.
Print Assumptions C30_number_refuted.

(** A null entry of a list is dereferenced. *)
Lemma null_entry : exists d, reachable Q inject_Z ex_dbl d /\ print_dict ex_show d = Undefined.
Proof.
  exists (fst (act_at inject_Z ex_start [] (Append (lit "conditions_settings_list") None))).
  split; [apply r_append_null; exact (r_create _ _ _ _ _ ex_created) | vm_compute; reflexivity].
Qed.
Theorem C30_null_entry_refuted : exists d, reachable Q inject_Z ex_dbl d /\ print_dict ex_show d = Undefined.
Proof. exact null_entry. Qed.
Print Assumptions C30_null_entry_refuted.
