(** Proofs about sessions: the calls. *)
From Coq Require Import String Ascii Bool NArith ZArith QArith Arith List Lia.
From Verif Require Import KeysModel SettingsKeys DictModel SettingsModel JsonModel BufferModel MeshModel StlModel VtkModel ConditionStlProps SessionModel SessionProofs.
Import ListNotations.
Local Open Scope nat_scope.

Section Calls.
Variable D : Type.
Variable w : world D.
Variable settings : dict D.
Variable echo : N.
Hypothesis Rd : readable D settings echo.
Notation vmesh := (mesh (vec D)).
Notation en := (w_engine w).

Lemma step_then {A B} (m : M D A) (f : A -> M D B) s s' a r : m s = (s', Return a) -> f a s' = r -> mbind m f s = r.
Proof. intros E F. unfold mbind. rewrite E. exact F. Qed.
Lemma step_stop {A B} (m : M D A) (f : A -> M D B) s s' a : m s = (s', Return a) -> snd (f a s') = Stop -> snd (mbind m f s) = Stop.
Proof. intros E F. unfold mbind. rewrite E. exact F. Qed.
Ltac nrm := cbn [fst snd st_info st_elements st_conditions st_files st_log with_geometry with_quadrature with_grid with_times with_infos f_closed f_volume f_represented f_percent f_points f_per_full f_per_trimmed f_active f_trimmed f_full f_inactive f_total f_vtotal f_class f_inter f_moment f_ggq f_ctotal f_wtotal f_infos Nat.eqb].
Tactic Notation "go" tactic3(L) := first [eapply step_then; [solve [L] |] | eapply step_stop; [solve [L] |]]; nrm.
Ltac now_ok := reflexivity.

(** *** CreateVolume *)
Definition volume_facts (m : vmesh) (v : D) (c : bool) (els : list (element D)) (t : D) (f : facts D) : facts D :=
  let '(t_class, t_inter, t_moment, t_ggq) := en_times en m in
  let active := N.of_nat (length els) in let trimmed := N.of_nat (count el_trimmed els) in let full := (active - trimmed)%N in
  let p_trimmed := N.of_nat (points el_trimmed els) in let p_full := N.of_nat (points (fun e => negb (el_trimmed e)) els) in
  let r := en_represented en els in
  Facts D (VBool c) (VDouble v) (VDouble r) (VDouble (w_percent w r v)) (VIndex (p_trimmed + p_full)) (VDouble (average w p_full full)) (VDouble (average w p_trimmed trimmed))
    (VIndex active) (VIndex trimmed) (VIndex full) (VIndex (en_cells en - active))
    (w_add w (f_total f) t) t t_class t_inter t_moment t_ggq (f_ctotal f) (f_wtotal f) (f_infos f).
Lemma volume_call f els conds files log m :
  match en_geometry en m with
  | None => snd (compute_volume w settings m (State (dict_of f) els conds files log)) = Stop
  | Some (v, c) =>
      if en_prepare en m then
        match en_elements en els m with
        | None => snd (compute_volume w settings m (State (dict_of f) els conds files log)) = Stop
        | Some els' => let t := w_clock w (length log) in
            compute_volume w settings m (State (dict_of f) els conds files log) = (State (dict_of (volume_facts m v c els' t f)) els' conds files (log ++ [(TimeVolume, t)]), Return tt)
        end
      else compute_volume w settings m (State (dict_of f) els conds files log) = (State (dict_of (with_geometry (VBool c) (VDouble v) f)) els conds files log, Throw)
  end.
Proof.
  destruct f as [x1 x2 x3 x4 x5 x6 x7 x8 x9 x10 x11 t0 t1 t2 t3 t4 t5 t6 t7 infos]. unfold volume_facts. destruct (en_times en m) as [[[ta tb] tc] td] eqn:T.
  destruct (en_geometry en m) as [[v c]|] eqn:G; [destruct (en_prepare en m) eqn:P; [destruct (en_elements en els m) as [els'|] eqn:E|]|]; unfold compute_volume; rewrite ?T, ?P; (go (apply (step_box D settings echo Rd))).
  - go (apply need_some; exact G). go (apply (step_volume D)). go (apply (step_closed D)). go now_ok.
    go (apply (step_vpart D) with (i := 1); repeat (first [left; reflexivity | right])). go now_ok. go (apply need_some; exact E). go now_ok. go now_ok. set (t := w_clock w (length log)).
    go (apply (step_vpart D) with (i := 0); repeat (first [left; reflexivity | right])). go (apply (step_total D)).
    go (apply (step_vpart D) with (i := 2); repeat (first [left; reflexivity | right])). go (apply (step_vpart D) with (i := 3); repeat (first [left; reflexivity | right])). go (apply (step_vpart D) with (i := 4); repeat (first [left; reflexivity | right])).
    go (apply (step_grid D) with (i := 0); repeat (first [left; reflexivity | right])). go (apply (step_grid D) with (i := 1); repeat (first [left; reflexivity | right])). go (apply (step_grid D) with (i := 2); repeat (first [left; reflexivity | right])). go (apply (step_grid D) with (i := 3); repeat (first [left; reflexivity | right])).
    go (apply (step_quad D) with (i := 2); repeat (first [left; reflexivity | right])). go (apply (step_quad D) with (i := 0); repeat (first [left; reflexivity | right])). go (apply (step_quad D) with (i := 1); repeat (first [left; reflexivity | right])). go (apply (step_quad D) with (i := 3); repeat (first [left; reflexivity | right])). go (apply (step_quad D) with (i := 4); repeat (first [left; reflexivity | right])).
    erewrite (step_print_volume D settings) by (first [exact Rd | reflexivity]). reflexivity.
  - go (apply need_some; exact G). go (apply (step_volume D)). go (apply (step_closed D)). go now_ok.
    go (apply (step_vpart D) with (i := 1); repeat (first [left; reflexivity | right])). go now_ok. rewrite E. reflexivity.
  - go (apply need_some; exact G). go (apply (step_volume D)). go (apply (step_closed D)). reflexivity.
  - rewrite G. reflexivity.
Qed.

(** *** CreateCondition *)
Definition condition_facts (c : cinfo D) (t : D) (f : facts D) : facts D :=
  with_infos (f_infos f ++ [c]) (with_times (w_add w (f_total f) t) (f_vtotal f) (f_class f) (f_inter f) (f_moment f) (f_ggq f) (w_add w (f_ctotal f) t) (f_wtotal f) f).
Lemma get_index_cases (d : dict D) k : (exists n, get_index d k = Ok n) \/ get_index d k = Abort \/ get_index d k = Undefined.
Proof.
  unfold get_index, key_get. destruct (d_data d) as [ds|]; [|auto]. unfold get_required. destruct (nth_error (ds_data ds) (k_index k)) as [v|]; [|auto].
  destruct (held v) as [t|]; [|auto]. destruct (ty_eqb t TIndex); [|auto]. cbn [bind]. destruct v; cbn [as_index]; eauto.
Qed.
Lemma condition_call f els conds files log m cs :
  match get_index cs ConditionSettings_condition_id, en_area en m with
  | Ok id, Some area =>
      if en_tree en m then
        match en_segments en els m with
        | None => snd (compute_condition w settings m cs (State (dict_of f) els conds files log)) = Stop
        | Some (segs, inside) => let t := w_clock w (length log) in
            compute_condition w settings m cs (State (dict_of f) els conds files log) =
              (State (dict_of (condition_facts (CInfo id area (Some (w_percent w inside area))) t f)) els (conds ++ [(cs, segs)]) files (log ++ [(TimeCondition, t)]), Return tt)
        end
      else compute_condition w settings m cs (State (dict_of f) els conds files log) = (State (dict_of (with_infos (f_infos f ++ [CInfo id area None]) f)) els conds files log, Throw)
  | _, _ => snd (compute_condition w settings m cs (State (dict_of f) els conds files log)) = Stop
  end.
Proof.
  destruct f as [x1 x2 x3 x4 x5 x6 x7 x8 x9 x10 x11 t0 t1 t2 t3 t4 t5 t6 t7 infos]. unfold condition_facts; nrm.
  destruct (get_index_cases cs ConditionSettings_condition_id) as [(id & E) | [E | E]]; rewrite E;
    [|unfold compute_condition; (go (apply (step_box D settings echo Rd))); (go now_ok); rewrite E; reflexivity|unfold compute_condition; (go (apply (step_box D settings echo Rd))); (go now_ok); rewrite E; reflexivity].
  destruct (en_area en m) as [area|] eqn:A; [destruct (en_tree en m) eqn:P; [destruct (en_segments en els m) as [[segs inside]|] eqn:G|]|]; unfold compute_condition; rewrite ?P;
    (go (apply (step_box D settings echo Rd))); (go now_ok); (go (apply lift_ok; exact E)); (go (apply lift_ok with (a := vdict (D := D) ConditionInfo_Values [VIndex id; Unset; Unset]); vm_compute; reflexivity)).
  - go (apply need_some; exact A). go (apply lift_ok with (a := cdict (CInfo id area None)); vm_compute; reflexivity). go (apply (step_push D)).
    go now_ok. go now_ok. go (apply need_some; exact G). go now_ok.
    go (apply (step_change_last D) with (l := infos) (c := CInfo id area None) (c' := CInfo id area (Some (w_percent w inside area))); [reflexivity | vm_compute; reflexivity]).
    go now_ok. set (t := w_clock w (length log)). go (apply (step_total D)). go now_ok. go (apply lift_ok; apply (sub_times D)). go (apply lift_ok; reflexivity). go (apply lift_ok; apply check_conditions).
    go (apply lift_ok with (a := t6); vm_compute; reflexivity). go (apply (step_cpart D)). go (eapply step_last; reflexivity). erewrite step_print_condition by (first [exact Rd | reflexivity]). reflexivity.
  - go (apply need_some; exact A). go (apply lift_ok with (a := cdict (CInfo id area None)); vm_compute; reflexivity). go (apply (step_push D)).
    go now_ok. go now_ok. rewrite G. reflexivity.
  - go (apply need_some; exact A). go (apply lift_ok with (a := cdict (CInfo id area None)); vm_compute; reflexivity). go (apply (step_push D)). reflexivity.
  - rewrite A. reflexivity.
Qed.
End Calls.
