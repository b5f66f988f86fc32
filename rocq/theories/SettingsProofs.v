(** Proofs about the factory and the settings check. *)
From Coq Require Import String Ascii Bool NArith ZArith QArith Arith List Lia.
From Verif Require Import KeysModel KeysProofs SettingsKeys DictModel DictProofs SettingsModel.
Import ListNotations.
Local Open Scope nat_scope.

(** *** Decision procedures for well-formedness *)

Fixpoint nodupb (l : list text) : bool :=
  match l with [] => true | a :: l' => negb (existsb (text_eqb a) l') && nodupb l' end.
Lemma nodupb_ok l : nodupb l = true -> NoDup l.
Proof.
  induction l as [|a l IH]; intros H; [constructor|]. simpl in H. apply andb_true_iff in H. destruct H as [A B].
  constructor; [|auto]. intros I. apply negb_true_iff in A.
  assert (existsb (text_eqb a) l = true); [|congruence]. apply existsb_exists. exists a. split; [exact I|].
  apply text_eqb_eq. reflexivity.
Qed.

Definition wf_keysetb (ks : keyset) : bool :=
  nodupb (ks_names ks) && nodupb (map fst (ks_map ks)) &&
  forallb (fun e => Nat.eqb (k_set (snd e)) (ks_id ks) && text_eqb (k_name (snd e)) (fst e) &&
    match nth_error (ks_names ks) (k_index (snd e)) with Some n => text_eqb n (fst e) | None => false end) (ks_map ks) &&
  forallb (fun n => existsb (text_eqb n) (map fst (ks_map ks))) (ks_names ks).
Lemma wf_keysetb_ok ks : wf_keysetb ks = true -> wf_keyset ks.
Proof.
  unfold wf_keysetb. rewrite !andb_true_iff. intros [[[A B] C] E]. split.
  - apply nodupb_ok, A.
  - apply nodupb_ok, B.
  - intros n k H. rewrite forallb_forall in C. specialize (C _ H). simpl in C.
    rewrite !andb_true_iff in C. destruct C as [[C1 C2] C3]. apply Nat.eqb_eq in C1. apply text_eqb_eq in C2.
    destruct (nth_error (ks_names ks) (k_index k)) as [n'|]; [|discriminate]. apply text_eqb_eq in C3. subst. auto.
  - intros n H. rewrite forallb_forall in E. specialize (E n H). apply existsb_exists in E.
    destruct E as [x [I T]]. apply text_eqb_eq in T. subst. exact I.
Qed.

Lemma wf_MainSettings_SubDict : wf_keyset MainSettings_SubDict.
Proof. apply wf_keysetb_ok. vm_compute. reflexivity. Qed.
Lemma reg_MainSettings_SubDict : MainSettings_SubDict_reg = Some MainSettings_SubDict.
Proof. vm_compute. reflexivity. Qed.
Lemma wf_MainSettings_List : wf_keyset MainSettings_List.
Proof. apply wf_keysetb_ok. vm_compute. reflexivity. Qed.
Lemma reg_MainSettings_List : MainSettings_List_reg = Some MainSettings_List.
Proof. vm_compute. reflexivity. Qed.
Lemma wf_GeneralSettings_Values : wf_keyset GeneralSettings_Values.
Proof. apply wf_keysetb_ok. vm_compute. reflexivity. Qed.
Lemma reg_GeneralSettings_Values : GeneralSettings_Values_reg = Some GeneralSettings_Values.
Proof. vm_compute. reflexivity. Qed.
Lemma wf_BackgroundGridSettings_Values : wf_keyset BackgroundGridSettings_Values.
Proof. apply wf_keysetb_ok. vm_compute. reflexivity. Qed.
Lemma reg_BackgroundGridSettings_Values : BackgroundGridSettings_Values_reg = Some BackgroundGridSettings_Values.
Proof. vm_compute. reflexivity. Qed.
Lemma wf_TrimmedQuadratureRuleSettings_Values : wf_keyset TrimmedQuadratureRuleSettings_Values.
Proof. apply wf_keysetb_ok. vm_compute. reflexivity. Qed.
Lemma reg_TrimmedQuadratureRuleSettings_Values : TrimmedQuadratureRuleSettings_Values_reg = Some TrimmedQuadratureRuleSettings_Values.
Proof. vm_compute. reflexivity. Qed.
Lemma wf_NonTrimmedQuadratureRuleSettings_Values : wf_keyset NonTrimmedQuadratureRuleSettings_Values.
Proof. apply wf_keysetb_ok. vm_compute. reflexivity. Qed.
Lemma reg_NonTrimmedQuadratureRuleSettings_Values : NonTrimmedQuadratureRuleSettings_Values_reg = Some NonTrimmedQuadratureRuleSettings_Values.
Proof. vm_compute. reflexivity. Qed.
Lemma wf_ConditionSettings_Values : wf_keyset ConditionSettings_Values.
Proof. apply wf_keysetb_ok. vm_compute. reflexivity. Qed.
Lemma reg_ConditionSettings_Values : ConditionSettings_Values_reg = Some ConditionSettings_Values.
Proof. vm_compute. reflexivity. Qed.
Lemma wf_MainInfo_SubDict : wf_keyset MainInfo_SubDict.
Proof. apply wf_keysetb_ok. vm_compute. reflexivity. Qed.
Lemma reg_MainInfo_SubDict : MainInfo_SubDict_reg = Some MainInfo_SubDict.
Proof. vm_compute. reflexivity. Qed.
Lemma wf_MainInfo_List : wf_keyset MainInfo_List.
Proof. apply wf_keysetb_ok. vm_compute. reflexivity. Qed.
Lemma reg_MainInfo_List : MainInfo_List_reg = Some MainInfo_List.
Proof. vm_compute. reflexivity. Qed.
Lemma wf_EmbeddedGeometryInfo_Values : wf_keyset EmbeddedGeometryInfo_Values.
Proof. apply wf_keysetb_ok. vm_compute. reflexivity. Qed.
Lemma reg_EmbeddedGeometryInfo_Values : EmbeddedGeometryInfo_Values_reg = Some EmbeddedGeometryInfo_Values.
Proof. vm_compute. reflexivity. Qed.
Lemma wf_QuadratureInfo_Values : wf_keyset QuadratureInfo_Values.
Proof. apply wf_keysetb_ok. vm_compute. reflexivity. Qed.
Lemma reg_QuadratureInfo_Values : QuadratureInfo_Values_reg = Some QuadratureInfo_Values.
Proof. vm_compute. reflexivity. Qed.
Lemma wf_BackgroundGridInfo_Values : wf_keyset BackgroundGridInfo_Values.
Proof. apply wf_keysetb_ok. vm_compute. reflexivity. Qed.
Lemma reg_BackgroundGridInfo_Values : BackgroundGridInfo_Values_reg = Some BackgroundGridInfo_Values.
Proof. vm_compute. reflexivity. Qed.
Lemma wf_ConditionInfo_Values : wf_keyset ConditionInfo_Values.
Proof. apply wf_keysetb_ok. vm_compute. reflexivity. Qed.
Lemma reg_ConditionInfo_Values : ConditionInfo_Values_reg = Some ConditionInfo_Values.
Proof. vm_compute. reflexivity. Qed.
Lemma wf_ElapsedTimeInfo_Values : wf_keyset ElapsedTimeInfo_Values.
Proof. apply wf_keysetb_ok. vm_compute. reflexivity. Qed.
Lemma reg_ElapsedTimeInfo_Values : ElapsedTimeInfo_Values_reg = Some ElapsedTimeInfo_Values.
Proof. vm_compute. reflexivity. Qed.
Lemma wf_ElapsedTimeInfo_SubDict : wf_keyset ElapsedTimeInfo_SubDict.
Proof. apply wf_keysetb_ok. vm_compute. reflexivity. Qed.
Lemma reg_ElapsedTimeInfo_SubDict : ElapsedTimeInfo_SubDict_reg = Some ElapsedTimeInfo_SubDict.
Proof. vm_compute. reflexivity. Qed.
Lemma wf_VolumeTimeInfo_Values : wf_keyset VolumeTimeInfo_Values.
Proof. apply wf_keysetb_ok. vm_compute. reflexivity. Qed.
Lemma reg_VolumeTimeInfo_Values : VolumeTimeInfo_Values_reg = Some VolumeTimeInfo_Values.
Proof. vm_compute. reflexivity. Qed.
Lemma wf_ConditionsTimeInfo_Values : wf_keyset ConditionsTimeInfo_Values.
Proof. apply wf_keysetb_ok. vm_compute. reflexivity. Qed.
Lemma reg_ConditionsTimeInfo_Values : ConditionsTimeInfo_Values_reg = Some ConditionsTimeInfo_Values.
Proof. vm_compute. reflexivity. Qed.
Lemma wf_WriteFilesTimeInfo_Values : wf_keyset WriteFilesTimeInfo_Values.
Proof. apply wf_keysetb_ok. vm_compute. reflexivity. Qed.
Lemma reg_WriteFilesTimeInfo_Values : WriteFilesTimeInfo_Values_reg = Some WriteFilesTimeInfo_Values.
Proof. vm_compute. reflexivity. Qed.

(** All key sets of the library can be registered and are well-formed. *)
Lemma all_registered : all_registrations = map (@Some keyset) all_keysets /\ Forall wf_keyset all_keysets.
Proof.
  split.
  - unfold all_registrations, all_keysets. cbn [map].
    rewrite reg_MainSettings_SubDict, reg_MainSettings_List, reg_GeneralSettings_Values, reg_BackgroundGridSettings_Values, reg_TrimmedQuadratureRuleSettings_Values, reg_NonTrimmedQuadratureRuleSettings_Values, reg_ConditionSettings_Values, reg_MainInfo_SubDict, reg_MainInfo_List, reg_EmbeddedGeometryInfo_Values, reg_QuadratureInfo_Values, reg_BackgroundGridInfo_Values, reg_ConditionInfo_Values, reg_ElapsedTimeInfo_Values, reg_ElapsedTimeInfo_SubDict, reg_VolumeTimeInfo_Values, reg_ConditionsTimeInfo_Values, reg_WriteFilesTimeInfo_Values. reflexivity.
  - unfold all_keysets. repeat apply Forall_cons; try apply Forall_nil.
    + exact wf_MainSettings_SubDict.
    + exact wf_MainSettings_List.
    + exact wf_GeneralSettings_Values.
    + exact wf_BackgroundGridSettings_Values.
    + exact wf_TrimmedQuadratureRuleSettings_Values.
    + exact wf_NonTrimmedQuadratureRuleSettings_Values.
    + exact wf_ConditionSettings_Values.
    + exact wf_MainInfo_SubDict.
    + exact wf_MainInfo_List.
    + exact wf_EmbeddedGeometryInfo_Values.
    + exact wf_QuadratureInfo_Values.
    + exact wf_BackgroundGridInfo_Values.
    + exact wf_ConditionInfo_Values.
    + exact wf_ElapsedTimeInfo_Values.
    + exact wf_ElapsedTimeInfo_SubDict.
    + exact wf_VolumeTimeInfo_Values.
    + exact wf_ConditionsTimeInfo_Values.
    + exact wf_WriteFilesTimeInfo_Values.
Qed.

Section Doubles.
Variable D : Type.
Variable of_int : Z -> D.
Variable dbl : Q -> D.
Notation dict := (dict D).
Notation dataset := (dataset D).
Notation value := (value D).

(** *** Building dictionaries by key *)

(** A key belongs to a key set. *)
Definition key_of (ks : keyset) (k : key) : Prop := pget_key ks (k_name k) = Some k.

Lemma key_set_value_sound (d : dict) k v : sound D d -> (exists ds, d_data d = Some ds /\ key_of (ds_keys ds) k) ->
  (held v = k_type k) ->
  exists d', key_set_value (Ok d) k v = Ok d' /\ sound D d' /\
    option_map ds_keys (d_data d') = option_map ds_keys (d_data d) /\ d_subs d' = d_subs d /\ d_lists d' = d_lists d.
Proof.
  intros S [ds [E K]] T. assert (L := sound_level _ _ S). destruct d as [o ss ll]. simpl in E. subst o.
  destruct L as [[W [Len Ty]] L]. simpl in W, Len, Ty.
  assert (R : k_index k < length (ds_data ds)). { rewrite Len. apply (pget_key_wf _ _ _ W K). }
  destruct (store_ok D ds (k_index k) v R) as [l [N St]].
  exists (Dict (Some {| ds_keys := ds_keys ds; ds_data := l |}) ss ll).
  split; [|split; [|auto]].
  - unfold key_set_value, set_by_key, bind. rewrite St. reflexivity.
  - apply sound_intro.
    + split; [|exact L]. simpl. split; [exact W|]. split; [simpl; rewrite (set_nth_length _ _ _ _ N); exact Len|].
      intros n' k' v' t' K' N' H'. simpl in K', N'. rewrite (set_nth_get _ _ _ _ _ N) in N'.
      destruct (k_index k' =? k_index k) eqn:I; [|eapply Ty; eauto].
      apply Nat.eqb_eq in I. inversion N'; subst v'.
      assert (n' = k_name k) by (eapply pget_key_inj; [exact W | exact K' | exact K | exact I]). subst n'.
      unfold key_of in K. congruence.
    + intros s d' G. apply (sound_go D (Dict (Some ds) ss ll) s d' S).
      destruct s; exact G.
Qed.

Lemma key_set_sub_sound (d x : dict) k : sound D d -> sound D x ->
  (exists ks l, d_subs d = Some (ks, l) /\ key_of ks k) ->
  exists d', key_set_sub (Ok d) k (Ok x) = Ok d' /\ sound D d' /\
    d_data d' = d_data d /\ option_map fst (d_subs d') = option_map fst (d_subs d) /\ d_lists d' = d_lists d.
Proof.
  intros S Sx [ks [l [E K]]]. assert (L := sound_level _ _ S).
  assert (A := act_sound D of_int d (SetSub (k_name k) (Some x)) S (fun y H => eq_ind x (sound D) Sx y (f_equal (fun o => match o with Some z => z | None => x end) H))).
  destruct d as [v ss ll]. simpl in E. subst ss. destruct L as [_ [[W Len] _]]. simpl in W, Len.
  assert (R : k_index k < length l). { rewrite Len. apply (pget_key_wf _ _ _ W K). }
  destruct (set_nth_some (k_index k) (Some x) l R) as [l' N].
  unfold key_of in K. simpl in A. rewrite K, N in A. simpl in A.
  exists (Dict v (Some (ks, l')) ll). split; [|split; [exact A | auto]].
  unfold key_set_sub, bind. rewrite N. reflexivity.
Qed.

(** *** Dictionaries made by the factory are sound *)

(** The key sets of a dictionary. *)
Definition shape (d : dict) : option keyset * option keyset * option keyset :=
  (option_map ds_keys (d_data d), option_map fst (d_subs d), option_map fst (d_lists d)).
Definition good (v s l : option keyset) (r : res dict) : Prop :=
  exists d, r = Ok d /\ sound D d /\ shape d = (v, s, l).

Lemma good_new v s l : (forall ks, v = Some ks \/ s = Some ks \/ l = Some ks -> wf_keyset ks) ->
  good v s l (Ok (new_dict v s l)).
Proof.
  intros W. exists (new_dict v s l). split; [reflexivity|]. split; [apply new_dict_sound, W|].
  unfold shape, new_dict. destruct v, s, l; reflexivity.
Qed.

Lemma good_values ks : wf_keyset ks -> good (Some ks) None None (values D ks).
Proof. intros W. apply good_new. intros ks' [H | [H | H]]; try discriminate H. injection H as <-. exact W. Qed.

Lemma good_set ks s l r k v : good (Some ks) s l r -> key_of ks k -> held v = k_type k ->
  good (Some ks) s l (key_set_value r k v).
Proof.
  intros [d [-> [S Sh]]] K T. unfold shape in Sh.
  destruct (d_data d) as [ds|] eqn:E; simpl in Sh; inversion Sh; subst.
  destruct (key_set_value_sound d k v S) as [d' [R [S' [A [B C]]]]]; [eauto | exact T |].
  exists d'. split; [exact R|]. split; [exact S'|]. unfold shape. rewrite A, B, C, E. reflexivity.
Qed.

Lemma good_sub v ks l r k x v' s' l' : good v (Some ks) l r -> good v' s' l' x -> key_of ks k ->
  good v (Some ks) l (key_set_sub r k x).
Proof.
  intros [d [-> [S Sh]]] [y [-> [Sy _]]] K. unfold shape in Sh.
  destruct (d_subs d) as [[ks' ls]|] eqn:E; simpl in Sh; inversion Sh; subst.
  destruct (key_set_sub_sound d y k S Sy) as [d' [R [S' [A [B C]]]]]; [eauto|].
  exists d'. split; [exact R|]. split; [exact S'|]. unfold shape. rewrite A, B, C, E. reflexivity.
Qed.

Ltac own := vm_compute; reflexivity.
Definition opt_wf (o : option keyset) : Prop := match o with Some ks => wf_keyset ks | None => True end.
Lemma good_new' v s l : opt_wf v -> opt_wf s -> opt_wf l -> good v s l (Ok (new_dict v s l)).
Proof.
  intros A B C. apply good_new. intros ks [H | [H | H]]; subst; assumption.
Qed.
Lemma good_is v s l r d : good v s l r -> r = Ok d -> sound D d.
Proof. intros [x [E [S _]]] R. rewrite R in E. injection E as <-. exact S. Qed.
Ltac build :=
  match goal with
  | |- good _ _ _ (values _ _) => apply good_values; assumption
  | |- good _ _ _ (Ok _) => apply good_new'; first [exact I | assumption]
  | |- good _ _ _ (key_set_value _ _ _) => eapply good_set; [build | own | own]
  | |- good _ _ _ (key_set_sub _ _ _) => eapply good_sub; [build | build | own]
  end.

Lemma create_settings_good : good None (Some MainSettings_SubDict) (Some MainSettings_List) (create_settings dbl).
Proof.
  pose proof wf_MainSettings_SubDict. pose proof wf_MainSettings_List. pose proof wf_NonTrimmedQuadratureRuleSettings_Values.
  pose proof wf_TrimmedQuadratureRuleSettings_Values. pose proof wf_BackgroundGridSettings_Values. pose proof wf_GeneralSettings_Values.
  unfold create_settings. cbv zeta. build.
Qed.

Lemma create_model_info_good : good None (Some MainInfo_SubDict) (Some MainInfo_List) (create_model_info dbl).
Proof.
  pose proof wf_MainInfo_SubDict. pose proof wf_MainInfo_List. pose proof wf_ElapsedTimeInfo_Values. pose proof wf_ElapsedTimeInfo_SubDict.
  pose proof wf_WriteFilesTimeInfo_Values. pose proof wf_ConditionsTimeInfo_Values. pose proof wf_VolumeTimeInfo_Values.
  pose proof wf_BackgroundGridInfo_Values. pose proof wf_QuadratureInfo_Values. pose proof wf_EmbeddedGeometryInfo_Values.
  unfold create_model_info. cbv zeta. build.
Qed.

Lemma create_sound n d : create dbl n = Ok d -> sound D d.
Proof.
  unfold create.
  destruct (text_eqb n (lit "Settings")); [eapply good_is, create_settings_good|].
  destruct (text_eqb n (lit "ConditionSettings")); [eapply good_is, good_values, wf_ConditionSettings_Values|].
  destruct (text_eqb n (lit "ModelInfo")); [eapply good_is, create_model_info_good|].
  destruct (text_eqb n (lit "ConditionInfo")); [eapply good_is, good_values, wf_ConditionInfo_Values | discriminate].
Qed.

Lemma create_cases n :
  (In n [lit "Settings"; lit "ConditionSettings"; lit "ModelInfo"; lit "ConditionInfo"] /\ exists d, create dbl n = Ok d) \/
  (~ In n [lit "Settings"; lit "ConditionSettings"; lit "ModelInfo"; lit "ConditionInfo"] /\ create dbl n = Error).
Proof.
  unfold create.
  destruct (text_eqb n (lit "Settings")) eqn:A.
  { apply text_eqb_eq in A. left. split; [subst; left; reflexivity|]. destruct create_settings_good as [d [E _]]. eauto. }
  destruct (text_eqb n (lit "ConditionSettings")) eqn:B.
  { apply text_eqb_eq in B. left. split; [subst; right; left; reflexivity | unfold create_condition_settings, values; eauto]. }
  destruct (text_eqb n (lit "ModelInfo")) eqn:C.
  { apply text_eqb_eq in C. left. split; [subst; right; right; left; reflexivity|]. destruct create_model_info_good as [d [E _]]. eauto. }
  destruct (text_eqb n (lit "ConditionInfo")) eqn:E.
  { apply text_eqb_eq in E. left. split; [subst; right; right; right; left; reflexivity | unfold create_condition_info, values; eauto]. }
  right. split; [|reflexivity]. intros [H | [H | [H | [H | []]]]]; symmetry in H; apply text_eqb_eq in H; congruence.
Qed.

(** *** The structure of a dictionary is kept by assignments and appends *)

Definition shape_at (d : dict) (p : list text) : res (option keyset * option keyset * option keyset) :=
  bind (walk d (map Sub p)) (fun x => Ok (shape x)).
Definition no_sub (a : action D) : Prop := match a with SetSub _ _ => False | _ => True end.

Lemma put_shape (d : dict) s x : shape (put d s x) = shape d.
Proof.
  unfold shape. rewrite put_data.
  destruct (put_cases D d s x) as [E | [H | H]]; [rewrite E; reflexivity| |].
  - destruct H as [n [ks [l [k [l' [? [E [? [? H]]]]]]]]]. rewrite H, E. reflexivity.
  - destruct H as [n [i [ks [ll [k [l [l' [ll' [? [E [? [? [? [? H]]]]]]]]]]]]]]. rewrite H, E. reflexivity.
Qed.

Lemma act_shape (d : dict) a : no_sub a -> shape (fst (act of_int d a)) = shape d /\
  forall n, go (fst (act of_int d a)) (Sub n) = go d (Sub n).
Proof.
  destruct a as [n v|n x|n x]; intros H; [|destruct H|]; simpl.
  - split.
    + destruct d as [[ds|] ss ll]; [|reflexivity]. unfold shape. simpl.
      assert (K := set_value_keys D of_int ds n v). destruct (set_value of_int ds n v) as [ds' r]. simpl in *.
      rewrite K. reflexivity.
    + intros m. exact (dict_set_go D of_int d n v (Sub m)).
  - destruct d as [v ss [[ks ll]|]]; [|split; reflexivity]. simpl.
    destruct (pget_key ks n) as [k|]; [|split; reflexivity].
    destruct (nth_error ll (k_index k)) as [l|]; [|split; reflexivity].
    destruct (set_nth (k_index k) (l ++ [x]) ll); split; reflexivity.
Qed.

Lemma act_at_shape q : forall d a p, sound D d -> no_sub a ->
  shape_at (fst (act_at of_int d q a)) p = shape_at d p.
Proof.
  induction q as [|s q IH]; intros d a p S A.
  - destruct (act_shape d a A) as [B C]. simpl. destruct p as [|n p]; unfold shape_at; simpl.
    + rewrite B. reflexivity.
    + specialize (C n). simpl in C. rewrite C. reflexivity.
  - simpl. destruct (go d s) as [d'| | |] eqn:G; try reflexivity.
    assert (S' := sound_go _ _ _ _ S G). specialize (IH d' a).
    destruct (act_at of_int d' q a) as [d'' r]. simpl in *.
    destruct p as [|n p]; unfold shape_at; cbn [map walk bind]; [rewrite put_shape; reflexivity|].
    destruct (step_eq_dec (Sub n) s) as [E | E].
    + subst s. rewrite (go_put_same D d (Sub n) d' d'' G), G. cbn [bind]. apply (IH p S' A).
    + rewrite (go_put_other D d s (Sub n) d'' (sound_level _ _ S) E). reflexivity.
Qed.

(** The histories a user can produce: assignments by name and appends. *)
Definition user_op (op : list step * action D) : Prop := no_sub (snd op) /\ action_sound D (snd op).

Lemma run_shape ops : forall d p, sound D d -> Forall user_op ops ->
  shape_at (run of_int d ops) p = shape_at d p.
Proof.
  unfold run. induction ops as [|op ops IH]; intros d p S F; [reflexivity|].
  inversion F as [|? ? [A B] F']; subst. cbn [fold_left]. rewrite IH; [|apply act_at_sound; assumption|assumption].
  apply act_at_shape; assumption.
Qed.

Lemma run_ok ops d : sound D d -> Forall user_op ops -> sound D (run of_int d ops).
Proof.
  intros S F. apply run_sound; [exact S|]. eapply Forall_impl; [|exact F]. intros op [_ H]. exact H.
Qed.

(** *** The settings check *)

(** Settings: the dictionary has the structure of the created settings. *)
Definition settings_structure (d : dict) : Prop :=
  shape_at d [] = Ok (None, Some MainSettings_SubDict, Some MainSettings_List) /\
  shape_at d [lit "general_settings"] = Ok (Some GeneralSettings_Values, None, None) /\
  shape_at d [lit "background_grid_settings"] = Ok (Some BackgroundGridSettings_Values, None, None) /\
  shape_at d [lit "trimmed_quadrature_rule_settings"] = Ok (Some TrimmedQuadratureRuleSettings_Values, None, None) /\
  shape_at d [lit "non_trimmed_quadrature_rule_settings"] = Ok (Some NonTrimmedQuadratureRuleSettings_Values, None, None).

Lemma created_structure d : create_settings dbl = Ok d -> settings_structure d.
Proof.
  intros E. vm_compute in E. inversion E; subst. repeat split; vm_compute; reflexivity.
Qed.

Lemma history_structure d ops : create_settings dbl = Ok d -> Forall user_op ops ->
  sound D (run of_int d ops) /\ settings_structure (run of_int d ops).
Proof.
  intros E F. assert (S : sound D d) by (eapply good_is; [apply create_settings_good | exact E]).
  split; [apply run_ok; assumption|]. unfold settings_structure. rewrite !run_shape by assumption.
  apply created_structure, E.
Qed.

(** Typed access to a required value of a sub-dictionary of the settings. *)
Lemma key_access (d : dict) ks n k kn vs vn t :
  sound D d -> check_required d = Ok tt -> shape_at d [] = Ok (None, Some ks, Some MainSettings_List) ->
  key_of ks k -> k_name k = n ->
  shape_at d [n] = Ok (Some vs, None, None) ->
  key_of vs kn -> k_name kn = vn -> k_req kn = true -> k_type kn = Some t ->
  exists x w, key_sub d k = Ok x /\ key_get t x kn = Ok w /\ held w = Some t /\
    read D d [Sub n] t vn = Ok w.
Proof.
  intros S C Sh K En Shn Kn Evn R T. unfold shape_at in Sh, Shn. cbn [map walk bind] in Sh, Shn.
  unfold shape in Sh. destruct (d_subs d) as [[ks' l]|] eqn:E; [|inversion Sh; discriminate].
  assert (ks' = ks) by (simpl in Sh; congruence). subst ks'.
  destruct (go d (Sub n)) as [x| | |] eqn:G; try discriminate. cbn [bind] in Shn.
  assert (W : walk d [Sub n] = Ok x) by (cbn [walk bind]; rewrite G; reflexivity).
  unfold shape in Shn. destruct (d_data x) as [ds|] eqn:Ex; [|inversion Shn].
  assert (ds_keys ds = vs) by (simpl in Shn; congruence). subst vs.
  destruct (required_readable D d [Sub n] x ds vn kn t S C W Ex) as [w [A B]]; auto.
  { unfold key_of in Kn. rewrite Evn in Kn. apply find_key_some in Kn. exact Kn. }
  exists x, w. split; [|split; [|split]].
  - simpl in G. rewrite E in G. unfold key_of in K. rewrite En in K. rewrite K in G.
    unfold key_sub. rewrite E. destruct (nth_error l (k_index k)) as [[y|]|]; congruence.
  - unfold key_get. rewrite Ex. exact A.
  - unfold get_required in A. destruct (nth_error (ds_data ds) (k_index kn)) as [v|]; [|discriminate].
    destruct (held v) as [t'|] eqn:Hv; [|discriminate]. destruct (ty_eqb t' t) eqn:Et; [|discriminate].
    apply ty_eqb_eq in Et. congruence.
  - unfold read. rewrite W. exact B.
Qed.

(** What the check accepts, in terms of the values read by name. *)
Definition is_ggq (m : method) : Prop := m = ggq_optimal \/ m = ggq_reduced_1 \/ m = ggq_reduced_2.
Definition admissible (o : N * N * N) (m : method) (g : grid_type) : Prop :=
  let '(a, b, c) := o in
  (1 <= a /\ 1 <= b /\ 1 <= c)%N /\
  (m = gauss_reduced_2 -> (2 <= a /\ 2 <= b /\ 2 <= c)%N) /\
  (is_ggq m -> (2 <= a <= 4 /\ 2 <= b <= 4 /\ 2 <= c <= 4)%N /\ g = b_spline_grid).
Definition accepted (d : dict) : Prop :=
  complete D d /\
  exists a b c m g,
    read D d [Sub (lit "background_grid_settings")] TVec (lit "polynomial_order") = Ok (VVec a b c) /\
    read D d [Sub (lit "non_trimmed_quadrature_rule_settings")] TMethod (lit "integration_method") = Ok (VMethod m) /\
    read D d [Sub (lit "background_grid_settings")] TGrid (lit "grid_type") = Ok (VGrid g) /\
    admissible (a, b, c) m g.

Lemma check_orders a b c m g :
  let mn := N.min (N.min a b) c in let mx := N.max (N.max a b) c in
  let r := bind (error_if (mn <? 1)%N) (fun _ =>
    bind (error_if ((mn <? 2)%N && (method_int m =? 2))) (fun _ =>
    bind (error_if ((3 <=? method_int m) && (4 <? mx)%N)) (fun _ =>
    bind (error_if ((3 <=? method_int m) && match g with b_spline_grid => false | _ => true end)) (fun _ =>
    error_if ((3 <=? method_int m) && (mn <? 2)%N))))) in
  (r = Ok tt /\ admissible (a, b, c) m g) \/ (r = Error /\ ~ admissible (a, b, c) m g).
Proof.
  intros mn mx r. unfold r, admissible, is_ggq, error_if, bind. clear r.
  destruct (mn <? 1)%N eqn:A; [apply N.ltb_lt in A | apply N.ltb_ge in A].
  { right. split; [reflexivity|]. intros H. subst mn. lia. }
  destruct (mn <? 2)%N eqn:B; [apply N.ltb_lt in B | apply N.ltb_ge in B];
  (destruct (4 <? mx)%N eqn:C; [apply N.ltb_lt in C | apply N.ltb_ge in C]); subst mn mx;
  destruct m, g; cbn [andb method_int Nat.leb Nat.eqb].
  all: first
    [ left; split; [reflexivity|];
      split; [lia|]; split; intros H; [first [discriminate H | lia]|];
      first [ solve [destruct H as [H | [H | H]]; discriminate H] | split; [lia | reflexivity] ]
    | right; split; [reflexivity|]; intros [H1 [H2 H3]];
      first [ specialize (H2 eq_refl); lia
            | specialize (H3 (or_introl eq_refl)); destruct H3; first [discriminate | lia]
            | specialize (H3 (or_intror (or_introl eq_refl))); destruct H3; first [discriminate | lia]
            | specialize (H3 (or_intror (or_intror eq_refl))); destruct H3; first [discriminate | lia] ] ].
Qed.

Theorem check_settings_spec (d : dict) : sound D d -> settings_structure d ->
  (check_settings d = Ok tt /\ accepted d) \/ (check_settings d = Error /\ ~ accepted d).
Proof.
  intros S [S0 [S1 [S2 [S3 S4]]]].
  destruct (check_required_spec D d S) as [[C C']|[C C']].
  2:{ right. unfold check_settings. rewrite C. split; [reflexivity|]. intros [H _]. contradiction. }
  destruct (key_access d _ (lit "general_settings") MainSettings_general_settings GeneralSettings_echo_level GeneralSettings_Values (lit "echo_level") TIndex S C S0)
    as [x1 [w1 [A1 [B1 [H1 _]]]]]; [vm_compute; reflexivity | vm_compute; reflexivity | assumption | vm_compute; reflexivity | vm_compute; reflexivity | vm_compute; reflexivity | vm_compute; reflexivity |].
  destruct (key_access d _ (lit "background_grid_settings") MainSettings_background_grid_settings BackgroundGridSettings_polynomial_order BackgroundGridSettings_Values (lit "polynomial_order") TVec S C S0)
    as [x2 [w2 [A2 [B2 [H2 R2]]]]]; [vm_compute; reflexivity | vm_compute; reflexivity | assumption | vm_compute; reflexivity | vm_compute; reflexivity | vm_compute; reflexivity | vm_compute; reflexivity |].
  destruct (key_access d _ (lit "background_grid_settings") MainSettings_background_grid_settings BackgroundGridSettings_number_of_elements BackgroundGridSettings_Values (lit "number_of_elements") TVec S C S0)
    as [x3 [w3 [A3 [B3 [H3 _]]]]]; [vm_compute; reflexivity | vm_compute; reflexivity | assumption | vm_compute; reflexivity | vm_compute; reflexivity | vm_compute; reflexivity | vm_compute; reflexivity |].
  destruct (key_access d _ (lit "non_trimmed_quadrature_rule_settings") MainSettings_non_trimmed_quadrature_rule_settings NonTrimmedQuadratureRuleSettings_integration_method NonTrimmedQuadratureRuleSettings_Values (lit "integration_method") TMethod S C S0)
    as [x4 [w4 [A4 [B4 [H4 R4]]]]]; [vm_compute; reflexivity | vm_compute; reflexivity | assumption | vm_compute; reflexivity | vm_compute; reflexivity | vm_compute; reflexivity | vm_compute; reflexivity |].
  destruct (key_access d _ (lit "background_grid_settings") MainSettings_background_grid_settings BackgroundGridSettings_grid_type BackgroundGridSettings_Values (lit "grid_type") TGrid S C S0)
    as [x5 [w5 [A5 [B5 [H5 R5]]]]]; [vm_compute; reflexivity | vm_compute; reflexivity | assumption | vm_compute; reflexivity | vm_compute; reflexivity | vm_compute; reflexivity | vm_compute; reflexivity |].
  assert (x3 = x2) by congruence. assert (x5 = x2) by congruence. subst x3 x5.
  destruct w1; try discriminate H1. destruct w2; try discriminate H2. destruct w3; try discriminate H3.
  destruct w4; try discriminate H4. destruct w5; try discriminate H5.
  assert (O := check_orders a b c m g). cbn zeta in O.
  assert (E : check_settings d = bind (error_if (N.min (N.min a b) c <? 1)%N) (fun _ =>
    bind (error_if ((N.min (N.min a b) c <? 2)%N && (method_int m =? 2))) (fun _ =>
    bind (error_if ((3 <=? method_int m) && (4 <? N.max (N.max a b) c)%N)) (fun _ =>
    bind (error_if ((3 <=? method_int m) && match g with b_spline_grid => false | _ => true end)) (fun _ =>
    error_if ((3 <=? method_int m) && (N.min (N.min a b) c <? 2)%N)))))).
  { unfold check_settings. rewrite C. cbn [bind]. rewrite A1. cbn [bind]. rewrite B1. cbn [bind as_index].
    rewrite A2. cbn [bind]. rewrite B2. cbn [bind as_vec]. rewrite B3. cbn [bind as_vec]. rewrite A4. cbn [bind].
    rewrite B4. cbn [bind as_method]. rewrite B5. cbn [bind as_grid]. reflexivity. }
  rewrite E. destruct O as [[O1 O2]|[O1 O2]]; [left|right]; (split; [exact O1|]).
  - split; [exact C'|]. exists a, b, c, m, g. auto.
  - intros [_ [a' [b' [c' [m' [g' [R2' [R4' [R5' O']]]]]]]]].
    rewrite R2 in R2'. rewrite R4 in R4'. rewrite R5 in R5'. inversion R2'; inversion R4'; inversion R5'; subst.
    contradiction.
Qed.

End Doubles.
