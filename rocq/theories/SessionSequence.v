(** Proofs about sessions: calls that return, CreateAllFromSettings as a sequence of calls, files, and the settings that are read. *)
From Coq Require Import String Ascii Bool NArith ZArith QArith Arith List Lia.
From Verif Require Import KeysModel KeysProofs SettingsKeys DictModel DictProofs SettingsModel SettingsProofs JsonModel BufferModel MeshModel StlModel VtkModel ConditionStlProps SessionModel SessionProofs SessionCalls SessionHistory.
Import ListNotations.
Local Open Scope nat_scope.
Notation read := DictProofs.read.

(** *** What accepted settings contain *)
Section Settings.
Variable D : Type.
Ltac side := first [vm_compute; reflexivity | assumption].
Lemma accepted_readable (st : dict D) : sound D st -> settings_structure D st -> check_settings st = Ok tt ->
  exists echo on dir file, readable D st echo /\ outputs D st echo on dir /\ (exists g, general st = Ok g /\ get_text g GeneralSettings_input_filename = Ok file) /\
    read D st [Sub (lit "general_settings")] TBool (lit "write_output_to_file") = Ok (VBool on) /\ read D st [Sub (lit "general_settings")] TString (lit "output_directory_name") = Ok (VString dir) /\
    read D st [Sub (lit "general_settings")] TString (lit "input_filename") = Ok (VString file).
Proof.
  intros S (S0 & S1 & S2 & _ & _) Ck. assert (C : check_required st = Ok tt). { unfold check_settings in Ck. destruct (check_required st) as [[]| | |]; [reflexivity | discriminate ..]. }
  destruct (key_access D st _ (lit "general_settings") MainSettings_general_settings GeneralSettings_echo_level GeneralSettings_Values (lit "echo_level") TIndex S C S0) as (g & w1 & A1 & B1 & H1 & _); [side..|].
  destruct (key_access D st _ (lit "general_settings") MainSettings_general_settings GeneralSettings_write_output_to_file GeneralSettings_Values (lit "write_output_to_file") TBool S C S0) as (g2 & w2 & A2 & B2 & H2 & R2); [side..|].
  destruct (key_access D st _ (lit "general_settings") MainSettings_general_settings GeneralSettings_output_directory_name GeneralSettings_Values (lit "output_directory_name") TString S C S0) as (g3 & w3 & A3 & B3 & H3 & R3); [side..|].
  destruct (key_access D st _ (lit "general_settings") MainSettings_general_settings GeneralSettings_input_filename GeneralSettings_Values (lit "input_filename") TString S C S0) as (g4 & w4 & A4 & B4 & H4 & R4); [side..|].
  destruct (key_access D st _ (lit "background_grid_settings") MainSettings_background_grid_settings BackgroundGridSettings_lower_bound_xyz BackgroundGridSettings_Values (lit "lower_bound_xyz") TPoint S C S0) as (b1 & w5 & A5 & B5 & _ & _); [side..|].
  destruct (key_access D st _ (lit "background_grid_settings") MainSettings_background_grid_settings BackgroundGridSettings_upper_bound_xyz BackgroundGridSettings_Values (lit "upper_bound_xyz") TPoint S C S0) as (b2 & w6 & A6 & B6 & _ & _); [side..|].
  assert (g2 = g) by congruence. assert (g3 = g) by congruence. assert (g4 = g) by congruence. assert (b2 = b1) by congruence. subst g2 g3 g4 b2.
  destruct w1; try discriminate H1. destruct w2; try discriminate H2. destruct w3; try discriminate H3. destruct w4; try discriminate H4.
  match type of B1 with _ = Ok (VIndex ?echo) => match type of B2 with _ = Ok (VBool ?on) => match type of B3 with _ = Ok (VString ?dir) => match type of B4 with _ = Ok (VString ?file) => exists echo, on, dir, file end end end end.
  split; [|split; [|split; [|auto]]].
  - split; [unfold echo_level, general, get_index; rewrite A1; cbn [bind]; rewrite B1; reflexivity|]. exists b1, w5, w6. auto.
  - exists g. unfold general, get_bool, get_text, get_index. rewrite A1, B1, B2, B3. repeat split; reflexivity.
  - exists g. unfold general, get_text. rewrite A1, B4. split; reflexivity.
Qed.
End Settings.

(** *** Reading the model info by name *)
Section Names.
Variable D : Type.
Lemma read_total (f : facts D) : read D (dict_of f) [Sub (lit "elapsed_time_info")] TDouble (lit "total") = Ok (VDouble (f_total f)).
Proof. vm_compute. reflexivity. Qed.
Lemma read_vtotal (f : facts D) : read D (dict_of f) [Sub (lit "elapsed_time_info"); Sub (lit "volume_time_info")] TDouble (lit "total") = Ok (VDouble (f_vtotal f)).
Proof. vm_compute. reflexivity. Qed.
Lemma read_ctotal (f : facts D) : read D (dict_of f) [Sub (lit "elapsed_time_info"); Sub (lit "conditions_time_info")] TDouble (lit "total") = Ok (VDouble (f_ctotal f)).
Proof. vm_compute. reflexivity. Qed.
Lemma read_wtotal (f : facts D) : read D (dict_of f) [Sub (lit "elapsed_time_info"); Sub (lit "write_files_time_info")] TDouble (lit "total") = Ok (VDouble (f_wtotal f)).
Proof. vm_compute. reflexivity. Qed.
Definition grid_entry (d : dict D) (n : text) : res (value D) := read D d [Sub (lit "background_grid_info")] TIndex n.
Lemma read_counts (f : facts D) a b c d p r : f_active f = VIndex a -> f_trimmed f = VIndex b -> f_full f = VIndex c -> f_inactive f = VIndex d -> f_points f = VIndex p -> f_represented f = VDouble r ->
  grid_entry (dict_of f) (lit "num_active_elements") = Ok (VIndex a) /\ grid_entry (dict_of f) (lit "num_trimmed_elements") = Ok (VIndex b) /\
  grid_entry (dict_of f) (lit "num_full_elements") = Ok (VIndex c) /\ grid_entry (dict_of f) (lit "num_inactive_elements") = Ok (VIndex d) /\
  read D (dict_of f) [Sub (lit "quadrature_info")] TIndex (lit "tot_num_points") = Ok (VIndex p) /\ read D (dict_of f) [Sub (lit "quadrature_info")] TDouble (lit "represented_volume") = Ok (VDouble r).
Proof. intros E1 E2 E3 E4 E5 E6. destruct f as [x1 x2 x3 x4 x5 x6 x7 x8 x9 x10 x11 t0 t1 t2 t3 t4 t5 t6 t7 infos]. cbn [f_active f_trimmed f_full f_inactive f_points f_represented] in *. subst. split; [vm_compute; reflexivity|]. split; [vm_compute; reflexivity|]. split; [vm_compute; reflexivity|]. split; [vm_compute; reflexivity|]. split; vm_compute; reflexivity. Qed.
(** The entries of the list of condition infos. *)
Definition lists (d : dict D) (l : list (cinfo D)) : Prop := forall i,
  match nth_error l i with
  | Some c =>
      read D d [Item (lit "conditions_infos_list") i] TIndex (lit "condition_id") = Ok (VIndex (ci_id c)) /\
      read D d [Item (lit "conditions_infos_list") i] TDouble (lit "surf_area") = Ok (VDouble (ci_area c)) /\
      read D d [Item (lit "conditions_infos_list") i] TDouble (lit "perc_surf_area_in_active_domain") = match ci_percent c with Some p => Ok (VDouble p) | None => Error end
  | None => walk d [Item (lit "conditions_infos_list") i] = Undefined
  end.
Lemma walk_item (f : facts D) i : walk (dict_of f) [Item (lit "conditions_infos_list") i] = match nth_error (f_infos f) i with Some c => Ok (cdict c) | None => Undefined end.
Proof.
  cbn [walk]. assert (E : go (dict_of f) (Item (lit "conditions_infos_list") i) = match nth_error (map (fun c => Some (cdict c)) (f_infos f)) i with Some (Some d') => Ok d' | _ => Undefined end).
  { cbn [go dict_of d_lists]. replace (pget_key MainInfo_List (lit "conditions_infos_list")) with (Some MainInfo_conditions_infos_list) by (vm_compute; reflexivity).
    change (k_index MainInfo_conditions_infos_list) with 0. reflexivity. }
  rewrite E, nth_error_map. destruct (nth_error (f_infos f) i); reflexivity.
Qed.
Lemma read_infos (f : facts D) : lists (dict_of f) (f_infos f).
Proof.
  intros i. unfold read. rewrite walk_item. destruct (nth_error (f_infos f) i) as [[id a p]|]; [|reflexivity]. cbn [bind ci_id ci_area ci_percent].
  split; [vm_compute; reflexivity|]. split; [vm_compute; reflexivity|]. destruct p; vm_compute; reflexivity.
Qed.
Lemma check_complete (f : facts D) cl v r p n pf pt a t fu ia : f_closed f = VBool cl -> f_volume f = VDouble v -> f_represented f = VDouble r -> f_percent f = VDouble p -> f_points f = VIndex n -> f_per_full f = VDouble pf -> f_per_trimmed f = VDouble pt ->
  f_active f = VIndex a -> f_trimmed f = VIndex t -> f_full f = VIndex fu -> f_inactive f = VIndex ia -> forallb (has_percent D) (f_infos f) = true -> check_required (dict_of f) = Ok tt.
Proof.
  destruct f as [x1 x2 x3 x4 x5 x6 x7 x8 x9 x10 x11 t0 t1 t2 t3 t4 t5 t6 t7 infos]. cbn [f_closed f_volume f_represented f_percent f_points f_per_full f_per_trimmed f_active f_trimmed f_full f_inactive f_infos].
  intros -> -> -> -> -> -> -> -> -> -> -> P.
  assert (R : run_all (map (fun o : option (dict D) => match o with None => Error | Some d' => check_required d' end) (map (fun c => Some (cdict c)) infos)) = Ok tt).
  { induction infos as [|[i ar [q|]] infos IH]; [reflexivity| |discriminate P]. cbn [map run_all]. rewrite check_cinfo. apply IH. exact P. }
  unfold dict_of. cbn [f_infos f_closed f_volume f_represented f_percent f_points f_per_full f_per_trimmed f_active f_trimmed f_full f_inactive]. cbn [check_required].
  match goal with |- bind (Ok tt) (fun _ => bind ?a (fun _ => ?b)) = _ => assert (A : a = Ok tt) by (vm_compute; reflexivity); assert (B : b = Ok tt) end.
  { cbn [map]. rewrite R. vm_compute. reflexivity. }
  cbn [bind]. rewrite A. cbn [bind]. exact B.
Qed.
End Names.

Section Sequence.
Variable D : Type.
Variable w : world D.
Variable settings : dict D.
Variables (echo : N) (on : bool) (dir : text).
Hypothesis Rd : readable D settings echo.
Hypothesis Ro : outputs D settings echo on dir.
Notation vmesh := (mesh (vec D)).
Notation en := (w_engine w).

(** *** Calls that return *)
Definition triple (P : state D -> Prop) {A} (m : M D A) (Q : state D -> Prop) : Prop := forall s, P s -> forall a, snd (m s) = Return a -> Q (fst (m s)).
Lemma triple_bind P Q R {A B} (m : M D A) (f : A -> M D B) : triple P m Q -> (forall a, triple Q (f a) R) -> triple P (mbind m f) R.
Proof.
  intros Hm Hf s Ps b. rewrite mbind_eq. specialize (Hm s Ps). destruct (m s) as [s1 [a| |]]; cbn [fst snd] in *; [|discriminate|discriminate].
  apply (Hf a s1). apply (Hm a). reflexivity.
Qed.
Lemma triple_pure P {A} (m : M D A) : (forall s, fst (m s) = s) -> triple P m P.
Proof. intros H s Ps a _. rewrite H. exact Ps. Qed.
(** Complete entries only; [b]: a volume was computed. *)
Definition clean (b : bool) (s : state D) : Prop := exists f, consistent D w s f /\ forallb (has_percent D) (f_infos f) = true /\ (b = true -> times_of TimeVolume (st_log s) <> []).
Lemma clean_volume b m : triple (clean b) (compute_volume w settings m) (clean true).
Proof.
  intros s (f & Cs & P & V) a R. assert (Iv : Inv D w (fst (compute_volume w settings m s))) by (apply (inv_volume D w settings echo Rd); [exists f; exact Cs | rewrite R; discriminate]).
  destruct s as [d els conds files log]. assert (E := proj1 Cs). cbn [st_info] in E. subst d. pose proof (volume_call D w settings echo Rd f els conds files log m) as H.
  destruct (en_geometry en m) as [[v c]|]; [|congruence]. destruct (en_prepare en m); [|rewrite H in R; discriminate]. destruct (en_elements en els m) as [els'|]; [|congruence]. cbv zeta in H. rewrite H in *. cbn [fst snd] in *.
  destruct Iv as (f' & Cs'). exists f'. split; [exact Cs'|]. split.
  - assert (Ei : f_infos f' = f_infos f).
    { destruct Cs' as (E & _). cbn [st_info] in E. unfold volume_facts in E. destruct (en_times en m) as [[[ta tb] tc] td]. cbv zeta in E.
      pose proof (read_infos D f') as L1. match type of E with dict_of ?x = _ => pose proof (read_infos D x) as L2; rewrite E in L2 end. clear - L1 L2 E.
      assert (Q := f_equal (fun d => match d_lists d with Some (_, [l]) => l | _ => [] end) E). cbn [dict_of d_lists f_infos] in Q. clear - Q.
      revert Q. generalize (f_infos f) (f_infos f'). intros l l' Q. revert l' Q. induction l as [|[i a p] l IH]; intros [|[i' a' p'] l'] Q; try discriminate; [reflexivity|].
      cbn [map] in Q. injection Q as Q1 Q2 Q3 Q4. f_equal; [|symmetry; apply (eq_sym (IH l' Q4))]. subst. destruct p, p'; congruence. }
    rewrite Ei. exact P.
  - intros _. cbn [st_log]. rewrite times_app. cbn. intros Q. apply app_eq_nil in Q. destruct Q; discriminate.
Qed.
Lemma clean_condition b m cs : triple (clean b) (compute_condition w settings m cs) (clean b).
Proof.
  intros s (f & Cs & P & V) a R. destruct s as [d els conds files log]. assert (E := proj1 Cs). cbn [st_info] in E. subst d. pose proof (condition_call D w settings echo Rd f els conds files log m cs) as H.
  destruct (get_index cs ConditionSettings_condition_id) as [id| | |] eqn:Eid; try congruence. destruct (en_area en m) as [area|]; [|congruence]. destruct (en_tree en m); [|rewrite H in R; discriminate].
  destruct (en_segments en els m) as [[segs inside]|]; [|congruence]. cbv zeta in H. rewrite H. cbn [fst]. set (t := w_clock w (length log)). exists (condition_facts D w (CInfo id area (Some (w_percent w inside area))) t f).
  split; [|split].
  - destruct Cs as (_ & T1 & T2 & T3 & T4 & C & K). unfold consistent, condition_facts. cbn [st_info st_log st_elements st_conditions with_infos with_times f_total f_ctotal f_vtotal f_wtotal f_infos] in *.
    rewrite !times_app, map_app. cbn [map snd fst kind_eqb]. rewrite !app_nil_r, !sum_snoc, <- T1, <- T2.
    split; [reflexivity|]. split; [reflexivity|]. split; [reflexivity|]. split; [exact T3|]. split; [exact T4|]. split; [|exact K].
    rewrite filter_app. apply Forall2_app; [exact C|]. cbn [List.filter has_percent ci_percent]. constructor; [exact Eid | constructor].
  - unfold condition_facts. cbn [with_infos with_times f_infos]. rewrite forallb_app, P. reflexivity.
  - intros B. specialize (V B). cbn [st_log] in *. rewrite times_app. cbn. rewrite app_nil_r. exact V.
Qed.
Lemma clean_write b : triple (clean b) (write_model w settings) (clean b).
Proof.
  intros s (f & Cs & P & V) a R. destruct s as [d els conds files log]. assert (E := proj1 Cs). cbn [st_info] in E. subst d. pose proof (write_call D w settings echo on dir Ro f els conds files log) as H.
  destruct (write_model w settings (State (dict_of f) els conds files log)) as [s' r]. cbn [fst snd] in *. subst r. destruct on.
  - destruct H as (files' & _ & -> & _). exists (write_facts D w (w_clock w (length log)) f). split; [eapply consistent_write; exact Cs|]. split; [exact P|]. intros B. specialize (V B). cbn [st_log] in *. rewrite times_app. cbn. rewrite app_nil_r. exact V.
  - destruct H as [-> _]. exists f. auto.
Qed.
Lemma clean_print b : triple (clean b) (print_volume_times settings) (clean b).
Proof.
  intros s (f & Cs & Rest) a _. destruct s as [d els conds files log]. assert (E := proj1 Cs). cbn [st_info] in E. subst d. rewrite (print_times_ok D settings echo Rd). cbn [fst]. exists f. auto.
Qed.
Lemma clean_cprint b : triple (clean b) (print_condition_times settings) (clean b).
Proof.
  intros s (f & Cs & Rest) a _. destruct s as [d els conds files log]. assert (E := proj1 Cs). cbn [st_info] in E. subst d. rewrite (print_condition_times_ok D settings echo Rd). cbn [fst]. exists f. auto.
Qed.
Lemma clean_conditions b l : triple (clean b) (create_conditions w settings l) (clean b).
Proof.
  induction l as [|[cs|] l IH]; cbn [create_conditions]; [apply triple_pure; reflexivity| |apply triple_pure; reflexivity].
  eapply triple_bind; [apply triple_pure, lift_pure|]. intros file. eapply triple_bind; [apply triple_pure, load_keeps|]. intros m. eapply triple_bind; [apply clean_condition|]. intros _. exact IH.
Qed.
Lemma clean_all b : triple (clean b) (create_all w settings) (clean true).
Proof.
  unfold create_all. eapply triple_bind; [apply triple_pure, lift_pure|]. intros g. eapply triple_bind; [apply triple_pure, lift_pure|]. intros _. eapply triple_bind; [apply triple_pure, lift_pure|]. intros file.
  eapply triple_bind; [apply triple_pure, load_keeps|]. intros m. eapply triple_bind; [apply clean_volume|]. intros _. eapply triple_bind; [apply clean_print|]. intros _.
  eapply triple_bind; [apply triple_pure, lift_pure|]. intros l. eapply triple_bind; [|intros _; apply clean_write]. destruct l as [|c l]; [apply triple_pure; reflexivity|].
  eapply triple_bind; [apply clean_conditions|]. intros _. apply clean_cprint.
Qed.
Definition makes_volume (c : call D) : bool := match c with CreateVolume _ | CreateAllFromSettings => true | _ => false end.
Lemma clean_weaken b s : clean true s -> clean b s.
Proof. intros (f & C & P & V). exists f. split; [exact C|]. split; [exact P|]. intros _. apply V. reflexivity. Qed.
Lemma clean_call b c : triple (clean b) (do_call w settings c) (clean (b || makes_volume c)).
Proof.
  destruct c; cbn [do_call makes_volume]; rewrite ?orb_true_r, ?orb_false_r; [apply clean_volume | apply clean_condition | apply clean_write | apply clean_all].
Qed.
Lemma clean_run l : forall b s s' rs, clean b s -> run_calls w settings l s = Some (s', rs) -> Forall (fun r => r = Return tt) rs -> clean (b || existsb makes_volume l) s'.
Proof.
  induction l as [|c l IH]; intros b s s' rs Cs R F; cbn [run_calls existsb] in *; [injection R as <- _; rewrite orb_false_r; exact Cs|].
  pose proof (clean_call b c s Cs) as K. destruct (do_call w settings c s) as [s1 r]. cbn [fst snd] in K.
  assert (Hr : r = Return tt /\ exists rs2, run_calls w settings l s1 = Some (s', rs2) /\ Forall (fun r => r = Return tt) rs2).
  { destruct r as [[]| |]; [| |discriminate]; destruct (run_calls w settings l s1) as [[s2 rs2]|]; try discriminate; injection R as <- <-; inversion F; subst; [split; [reflexivity | exists rs2; auto] | discriminate]. }
  destruct Hr as (-> & rs2 & R2 & F2). rewrite orb_assoc. eapply IH; [apply (K tt); reflexivity | exact R2 | exact F2].
Qed.
Lemma clean_start files s0 : create_model w settings files = Ok s0 -> clean false s0.
Proof.
  unfold create_model. destruct (check_settings settings); try discriminate. cbn [bind]. rewrite created. cbn [bind]. intros E. injection E as <-. exists (fresh (w_dbl w 0%Q)).
  split; [|split; [reflexivity | discriminate]]. unfold consistent. cbn. repeat split; try reflexivity. constructor.
Qed.
Lemma clean_check s f : consistent D w s f -> forallb (has_percent D) (f_infos f) = true -> times_of TimeVolume (st_log s) <> [] -> check_required (st_info s) = Ok tt.
Proof.
  intros (E & _ & _ & _ & _ & _ & K) P V. rewrite E. destruct (times_of TimeVolume (st_log s)); [contradiction|]. destruct K as (K1 & K2 & K3 & K4 & K5 & K6 & (x7 & K7) & (x8 & K8) & (x9 & K9) & (x10 & K10) & (x11 & K11)).
  eapply check_complete; eassumption.
Qed.

(** *** CreateAllFromSettings as a sequence of calls *)
Definition in_order (l : list (call D)) : M D unit := fold_right (fun c r => mbind (do_call w settings c) (fun _ => r)) (ret tt) l.
Definition loads (files : text -> option bytes) (n : text) (m : vmesh) : Prop :=
  exists b, files n = Some b /\ read_stl D (w_of_float w) (w_scan w) (w_less w) (w_normal w) (w_host w) b = Loaded m.
Lemma load_ok s n m : loads (st_files s) n m -> load w n s = (s, Return m).
Proof. intros (b & E & L). unfold load. rewrite E, L. reflexivity. Qed.
Lemma volume_files m (s s' : state D) r : Inv D w s -> compute_volume w settings m s = (s', r) -> r = Return tt -> st_files s' = st_files s.
Proof.
  intros (f & Cs) R ->. destruct s as [d els conds files log]. assert (E := proj1 Cs). cbn [st_info] in E. subst d. pose proof (volume_call D w settings echo Rd f els conds files log m) as H. rewrite R in H. cbn [snd] in H.
  destruct (en_geometry en m) as [[v c]|]; [|discriminate]. destruct (en_prepare en m); [|discriminate H]. destruct (en_elements en els m); [|discriminate]. injection H as ->. reflexivity.
Qed.
Lemma condition_files m cs (s s' : state D) r : Inv D w s -> compute_condition w settings m cs s = (s', r) -> r = Return tt -> st_files s' = st_files s.
Proof.
  intros (f & Cs) R ->. destruct s as [d els conds files log]. assert (E := proj1 Cs). cbn [st_info] in E. subst d. pose proof (condition_call D w settings echo Rd f els conds files log m cs) as H. rewrite R in H. cbn [snd] in H.
  destruct (get_index cs ConditionSettings_condition_id) as [id| | |]; try discriminate. destruct (en_area en m); [|discriminate]. destruct (en_tree en m); [|discriminate H]. destruct (en_segments en els m) as [[segs inside]|]; [|discriminate]. injection H as ->. reflexivity.
Qed.
Lemma mbind_assoc {A B C} (m : M D A) (f : A -> M D B) (g : B -> M D C) s : mbind (mbind m f) g s = mbind m (fun a => mbind (f a) g) s.
Proof. unfold mbind. destruct (m s) as [s1 [a| |]]; reflexivity. Qed.
Lemma mbind_ext {A B} (m : M D A) (f g : A -> M D B) s : (forall s1 a, m s = (s1, Return a) -> f a s1 = g a s1) -> mbind m f s = mbind m g s.
Proof. intros H. unfold mbind. destruct (m s) as [s1 [a| |]]; [apply H; reflexivity | reflexivity | reflexivity]. Qed.
Definition condition_calls (l : list (dict D * vmesh)) : list (call D) := map (fun c => CreateCondition (snd c) (fst c)) l.
Lemma conditions_sequence files (k : M D unit) (p : M D unit) items : (forall s, Inv D w s -> p s = (s, Return tt)) ->
  Forall (fun c => exists file, get_text (fst c) ConditionSettings_input_filename = Ok file /\ loads files file (snd c)) items ->
  forall s, Inv D w s -> st_files s = files ->
  mbind (create_conditions w settings (map (fun c => Some (fst c)) items)) (fun _ => mbind p (fun _ => k)) s = fold_right (fun c r => mbind (do_call w settings c) (fun _ => r)) k (condition_calls items) s.
Proof.
  intros Hp F. induction F as [|[cs m] items (file & G & L) F IH]; intros s Is Fs; cbn [map create_conditions condition_calls fold_right fst snd].
  - rewrite (mbind_return D (ret tt) _ s s tt eq_refl). rewrite (mbind_return D _ _ _ _ _ (Hp s Is)). reflexivity.
  - cbn [fst snd] in *. rewrite mbind_assoc. rewrite (mbind_return D _ _ _ _ _ (lift_ok D _ _ _ G)). rewrite mbind_assoc. rewrite (mbind_return D (load w file) _ s s m) by (apply load_ok; rewrite Fs; exact L).
    rewrite mbind_assoc. apply mbind_ext. intros s1 [] R. cbn [do_call] in R. apply IH.
    + pose proof (inv_condition D w settings echo Rd m cs s Is) as K. rewrite R in K. apply K. discriminate.
    + rewrite <- Fs. eapply condition_files; [exact Is | exact R | reflexivity].
Qed.
Lemma all_sequence s g file m items : Inv D w s -> general settings = Ok g -> get_text g GeneralSettings_input_filename = Ok file -> loads (st_files s) file m ->
  key_list settings MainSettings_conditions_settings_list = Ok (map (fun c => Some (fst c)) items) ->
  Forall (fun c => exists file, get_text (fst c) ConditionSettings_input_filename = Ok file /\ loads (st_files s) file (snd c)) items ->
  do_call w settings CreateAllFromSettings s = in_order (CreateVolume m :: condition_calls items ++ [WriteModelToFile]) s.
Proof.
  intros Is G T L K F. cbn [do_call in_order fold_right]. unfold create_all. rewrite (mbind_return D _ _ _ _ _ (lift_ok D _ _ _ G)). destruct Ro as (g' & G' & _ & _ & E). assert (g' = g) by congruence. subst g'.
  rewrite (mbind_return D _ _ _ _ _ (lift_ok D _ _ _ E)), (mbind_return D _ _ _ _ _ (lift_ok D _ _ _ T)), (mbind_return D _ _ _ _ _ (load_ok s file m L)). apply mbind_ext. intros s1 [] R. cbn [do_call] in R.
  assert (I1 : Inv D w s1). { pose proof (inv_volume D w settings echo Rd m s Is) as X. rewrite R in X. apply X. discriminate. }
  assert (F1 : st_files s1 = st_files s) by (eapply volume_files; [exact Is | exact R | reflexivity]).
  assert (Hp : print_volume_times settings s1 = (s1, Return tt)). { destruct (inv_form D w s1 I1) as (f & E1). destruct s1 as [d els conds files log]. cbn [st_info] in E1. subst d. apply (print_times_ok D settings echo Rd). }
  rewrite (mbind_return D _ _ _ _ _ Hp), (mbind_return D _ _ _ _ _ (lift_ok D _ _ _ K)).
  assert (Q : forall s, Inv D w s -> print_condition_times settings s = (s, Return tt)). { intros s2 I2. destruct (inv_form D w s2 I2) as (f & E2). destruct s2 as [d els conds files log]. cbn [st_info] in E2. subst d. apply (print_condition_times_ok D settings echo Rd). }
  transitivity (fold_right (fun c r => mbind (do_call w settings c) (fun _ => r)) (write_model w settings) (condition_calls items) s1).
  - destruct items as [|c items]; [reflexivity|]. rewrite <- (conditions_sequence (st_files s) (write_model w settings) (print_condition_times settings) (c :: items) Q F s1 I1 F1). cbn [map]. apply mbind_assoc.
  - rewrite fold_right_app. cbn [fold_right do_call]. generalize (condition_calls items). clear. intros l. revert s1. induction l as [|c l IH]; intros s1; cbn [fold_right].
    + unfold mbind, ret. destruct (write_model w settings s1) as [s2 [[]| |]]; reflexivity.
    + apply mbind_ext. intros s2 [] _. apply IH.
Qed.

(** *** Files that are left alone *)
Definition out_name (m : text) : Prop := m = dir ++ lit "/elements.vtk" \/ m = dir ++ lit "/integration_points.vtk" \/ m = dir ++ lit "/model_info.json" \/ exists i, m = condition_file dir i.
Definition untouched (files : text -> option bytes) (s : state D) : Prop := Inv D w s /\ forall m, (on = true -> ~ out_name m) -> st_files s m = files m.
Lemma frame_run files s0 l s rs : create_model w settings files = Ok s0 -> run_calls w settings l s0 = Some (s, rs) -> forall m, (on = true -> ~ out_name m) -> st_files s m = files m.
Proof.
  intros C R. assert (U : untouched files s).
  2:{ apply U. }
  eapply (keeps_run D w settings echo Rd (untouched files)); [| | | | |exact R].
  - intros s' [X _]. apply (inv_form D w s' X).
  - intros m s' [Is U] N. split; [apply (inv_volume D w settings echo Rd); assumption|]. intros n Hn. rewrite <- (U n Hn). destruct Is as (f & Cs). destruct s' as [d els conds fl log]. assert (E := proj1 Cs). cbn [st_info] in E. subst d.
    pose proof (volume_call D w settings echo Rd f els conds fl log m) as H. destruct (en_geometry en m) as [[v c]|]; [|contradiction]. destruct (en_prepare en m); [|rewrite H; reflexivity]. destruct (en_elements en els m); [|contradiction]. cbv zeta in H. rewrite H. reflexivity.
  - intros m cs s' [Is U] N. split; [apply (inv_condition D w settings echo Rd); assumption|]. intros n Hn. rewrite <- (U n Hn). destruct Is as (f & Cs). destruct s' as [d els conds fl log]. assert (E := proj1 Cs). cbn [st_info] in E. subst d.
    pose proof (condition_call D w settings echo Rd f els conds fl log m cs) as H. destruct (get_index cs ConditionSettings_condition_id) as [id| | |]; try contradiction. destruct (en_area en m); [|contradiction]. destruct (en_tree en m); [|rewrite H; reflexivity]. destruct (en_segments en els m) as [[segs inside]|]; [|contradiction]. cbv zeta in H. rewrite H. reflexivity.
  - intros s' [Is U] N. split; [apply (inv_write D w settings echo on dir Ro); assumption|]. intros n Hn. rewrite <- (U n Hn). destruct Is as (f & Cs). destruct s' as [d els conds fl log]. assert (E := proj1 Cs). cbn [st_info] in E. subst d.
    pose proof (write_call D w settings echo on dir Ro f els conds fl log) as H. destruct (write_model w settings (State (dict_of f) els conds fl log)) as [s2 r]. cbn [fst snd st_files] in *. destruct on.
    + destruct H as (fl' & Fr & H). assert (Q : st_files s2 = fl') by (destruct r; [destruct H as [-> _]; reflexivity | destruct H as [-> | ->]; reflexivity | contradiction]). rewrite Q. apply Fr. intros O. apply (Hn eq_refl).
      destruct O as [-> | [-> | [-> | (c & i & _ & _ & ->)]]]; [left | right; left | right; right; left | right; right; right; exists i]; reflexivity.
    + destruct H as [-> _]. reflexivity.
  - split; [eapply inv_start; exact C|]. intros m _. unfold create_model in C. destruct (check_settings settings) as [[]| | |]; [|discriminate C ..]. cbn [bind] in C. rewrite created in C. cbn [bind] in C. injection C as <-. reflexivity.
Qed.
Lemma json_text d b disk : write_json w d disk = Saved b -> print_dict (w_show w) d = Ok b.
Proof.
  unfold write_json. destruct (print_dict (w_show w) d) as [t| | |]; try discriminate. unfold put_all, finish. cbn [fold_left]. unfold stream_write, new_file. cbn [f_good f_bytes].
  destruct (disk [] t); cbn [f_good f_bytes]; [discriminate|]. intros E. injection E as <-. reflexivity.
Qed.
End Sequence.
