(** Proofs about sessions with an embedded model: the effect of each operation on the model info. *)
From Coq Require Import String Ascii Bool NArith ZArith QArith Arith List Lia.
From Verif Require Import KeysModel SettingsKeys DictModel SettingsModel JsonModel BufferModel MeshModel StlModel VtkModel ConditionStlProps SessionModel.
Import ListNotations.
Local Open Scope nat_scope.

Section Facts.
Variable D : Type.
(** *** The entries of the model info *)
Record cinfo := CInfo { ci_id : N; ci_area : D; ci_percent : option D }.
Record facts := Facts {
  f_closed : value D; f_volume : value D;
  f_represented : value D; f_percent : value D; f_points : value D; f_per_full : value D; f_per_trimmed : value D;
  f_active : value D; f_trimmed : value D; f_full : value D; f_inactive : value D;
  f_total : D; f_vtotal : D; f_class : D; f_inter : D; f_moment : D; f_ggq : D; f_ctotal : D; f_wtotal : D;
  f_infos : list cinfo }.
Definition vdict (ks : keyset) (l : list (value D)) : dict D := Dict (Some {| ds_keys := ks; ds_data := l |}) None None.
Definition cdict (c : cinfo) : dict D :=
  vdict ConditionInfo_Values [VIndex (ci_id c); VDouble (ci_area c); match ci_percent c with Some p => VDouble p | None => Unset end].
Definition tdict (f : facts) : dict D :=
  Dict (Some {| ds_keys := ElapsedTimeInfo_Values; ds_data := [VDouble (f_total f)] |})
    (Some (ElapsedTimeInfo_SubDict, [
       Some (vdict VolumeTimeInfo_Values [VDouble (f_vtotal f); VDouble (f_class f); VDouble (f_inter f); VDouble (f_moment f); VDouble (f_ggq f)]);
       Some (vdict ConditionsTimeInfo_Values [VDouble (f_ctotal f)]);
       Some (vdict WriteFilesTimeInfo_Values [VDouble (f_wtotal f)])])) None.
Definition dict_of (f : facts) : dict D :=
  Dict None (Some (MainInfo_SubDict, [
     Some (vdict EmbeddedGeometryInfo_Values [f_closed f; f_volume f]);
     Some (vdict QuadratureInfo_Values [f_represented f; f_percent f; f_points f; f_per_full f; f_per_trimmed f]);
     Some (vdict BackgroundGridInfo_Values [f_active f; f_trimmed f; f_full f; f_inactive f]);
     Some (tdict f)]))
   (Some (MainInfo_List, [map (fun c => Some (cdict c)) (f_infos f)])).
Definition fresh (zero : D) : facts := Facts Unset Unset Unset Unset Unset Unset Unset Unset Unset Unset Unset zero zero zero zero zero zero zero zero [].
Lemma created dbl : create_model_info dbl = Ok (dict_of (fresh (dbl 0%Q))).
Proof. vm_compute. reflexivity. Qed.

Definition with_geometry (closed volume : value D) (f : facts) : facts :=
  Facts closed volume (f_represented f) (f_percent f) (f_points f) (f_per_full f) (f_per_trimmed f) (f_active f) (f_trimmed f) (f_full f) (f_inactive f)
    (f_total f) (f_vtotal f) (f_class f) (f_inter f) (f_moment f) (f_ggq f) (f_ctotal f) (f_wtotal f) (f_infos f).
Definition with_quadrature (a b c d e : value D) (f : facts) : facts :=
  Facts (f_closed f) (f_volume f) a b c d e (f_active f) (f_trimmed f) (f_full f) (f_inactive f)
    (f_total f) (f_vtotal f) (f_class f) (f_inter f) (f_moment f) (f_ggq f) (f_ctotal f) (f_wtotal f) (f_infos f).
Definition with_grid (a b c d : value D) (f : facts) : facts :=
  Facts (f_closed f) (f_volume f) (f_represented f) (f_percent f) (f_points f) (f_per_full f) (f_per_trimmed f) a b c d
    (f_total f) (f_vtotal f) (f_class f) (f_inter f) (f_moment f) (f_ggq f) (f_ctotal f) (f_wtotal f) (f_infos f).
Definition with_times (total vtotal cl inter mom ggq ctotal wtotal : D) (f : facts) : facts :=
  Facts (f_closed f) (f_volume f) (f_represented f) (f_percent f) (f_points f) (f_per_full f) (f_per_trimmed f) (f_active f) (f_trimmed f) (f_full f) (f_inactive f)
    total vtotal cl inter mom ggq ctotal wtotal (f_infos f).
Definition with_infos (l : list cinfo) (f : facts) : facts :=
  Facts (f_closed f) (f_volume f) (f_represented f) (f_percent f) (f_points f) (f_per_full f) (f_per_trimmed f) (f_active f) (f_trimmed f) (f_full f) (f_inactive f)
    (f_total f) (f_vtotal f) (f_class f) (f_inter f) (f_moment f) (f_ggq f) (f_ctotal f) (f_wtotal f) l.

(** *** The accessors *)
Ltac idx := vm_compute; reflexivity.
Lemma sub_times f : key_sub (dict_of f) MainInfo_elapsed_time_info = Ok (tdict f). Proof. reflexivity. Qed.
Lemma check_times f : check_required (tdict f) = Ok tt. Proof. vm_compute. reflexivity. Qed.
Lemma check_conditions d : check_required (vdict ConditionsTimeInfo_Values [VDouble d]) = Ok tt. Proof. vm_compute. reflexivity. Qed.
Lemma check_volume_times a b c d e : check_required (vdict VolumeTimeInfo_Values [VDouble a; VDouble b; VDouble c; VDouble d; VDouble e]) = Ok tt. Proof. vm_compute. reflexivity. Qed.
Lemma check_cinfo i a p : check_required (cdict (CInfo i a (Some p))) = Ok tt. Proof. vm_compute. reflexivity. Qed.
End Facts.
Arguments CInfo {D} ci_id ci_area ci_percent. Arguments ci_id {D} c. Arguments ci_area {D} c. Arguments ci_percent {D} c.
Arguments vdict {D} ks l. Arguments cdict {D} c. Arguments tdict {D} f. Arguments dict_of {D} f. Arguments fresh {D} zero.
Arguments with_geometry {D} closed volume f. Arguments with_quadrature {D} a b c d e f. Arguments with_grid {D} a b c d f.
Arguments with_times {D} total vtotal cl inter mom ggq ctotal wtotal f. Arguments with_infos {D} l f.
Arguments f_closed {D} f. Arguments f_volume {D} f. Arguments f_represented {D} f. Arguments f_percent {D} f. Arguments f_points {D} f. Arguments f_per_full {D} f.
Arguments f_per_trimmed {D} f. Arguments f_active {D} f. Arguments f_trimmed {D} f. Arguments f_full {D} f. Arguments f_inactive {D} f. Arguments f_total {D} f.
Arguments f_vtotal {D} f. Arguments f_class {D} f. Arguments f_inter {D} f. Arguments f_moment {D} f. Arguments f_ggq {D} f. Arguments f_ctotal {D} f.
Arguments f_wtotal {D} f. Arguments f_infos {D} f.

Section Steps.
Variable D : Type.
Variable w : world D.
Variable settings : dict D.
Notation vmesh := (mesh (vec D)).
Lemma mbind_return {A B} (m : M D A) (f : A -> M D B) s s' a : m s = (s', Return a) -> mbind m f s = f a s'.
Proof. intros E. unfold mbind. rewrite E. reflexivity. Qed.
Lemma mbind_throw {A B} (m : M D A) (f : A -> M D B) s s' : m s = (s', Throw) -> mbind m f s = (s', Throw).
Proof. intros E. unfold mbind. rewrite E. reflexivity. Qed.
Lemma mbind_stop {A B} (m : M D A) (f : A -> M D B) s s' : m s = (s', Stop) -> mbind m f s = (s', Stop).
Proof. intros E. unfold mbind. rewrite E. reflexivity. Qed.
Lemma lift_ok {A} (r : res A) (a : A) s : r = Ok a -> @lift D A r s = (s, Return a).
Proof. intros ->. reflexivity. Qed.
Lemma need_some {A} (o : option A) (a : A) s : o = Some a -> @need D A o s = (s, Return a).
Proof. intros ->. reflexivity. Qed.

Variables (els : list (element D)) (conds : list (dict D * list vmesh)) (files : text -> option bytes) (log : list (kind * D)).
Notation mk := (fun f => State (dict_of f) els conds files log).
Lemma change_step f f' (g : dict D -> res (dict D)) : g (dict_of f) = Ok (dict_of f') -> change_info g (mk f) = (mk f', Return tt).
Proof. intros E. unfold change_info. rewrite (mbind_return info _ _ (mk f) (dict_of f) eq_refl). rewrite (mbind_return _ _ _ _ _ (lift_ok _ _ _ E)). reflexivity. Qed.

Lemma step_volume f v : set_geometry EmbeddedGeometryInfo_volume v (mk f) = (mk (with_geometry (f_closed f) v f), Return tt).
Proof. apply change_step. vm_compute. reflexivity. Qed.
Lemma step_closed f v : set_geometry EmbeddedGeometryInfo_is_closed v (mk f) = (mk (with_geometry v (f_volume f) f), Return tt).
Proof. apply change_step. vm_compute. reflexivity. Qed.
Lemma step_vpart k v f : forall i, In (k, i) [(VolumeTimeInfo_total, 0); (VolumeTimeInfo_classification_of_elements, 1); (VolumeTimeInfo_computation_of_intersections, 2); (VolumeTimeInfo_solution_of_moment_fitting_eqs, 3); (VolumeTimeInfo_construction_of_ggq_rules, 4)] ->
  set_part_time ElapsedTimeInfo_volume_time_info k (VDouble v) (mk f) =
  (mk (with_times (f_total f) (if i =? 0 then v else f_vtotal f) (if i =? 1 then v else f_class f) (if i =? 2 then v else f_inter f) (if i =? 3 then v else f_moment f) (if i =? 4 then v else f_ggq f) (f_ctotal f) (f_wtotal f) f), Return tt).
Proof. intros i [H | [H | [H | [H | [H | []]]]]]; injection H as <- <-; apply change_step; vm_compute; reflexivity. Qed.
Lemma step_cpart v f : set_part_time ElapsedTimeInfo_conditions_time_info ConditionsTimeInfo_total (VDouble v) (mk f) =
  (mk (with_times (f_total f) (f_vtotal f) (f_class f) (f_inter f) (f_moment f) (f_ggq f) v (f_wtotal f) f), Return tt).
Proof. apply change_step. vm_compute. reflexivity. Qed.
Lemma step_wpart v f : set_part_time ElapsedTimeInfo_write_files_time_info WriteFilesTimeInfo_total (VDouble v) (mk f) =
  (mk (with_times (f_total f) (f_vtotal f) (f_class f) (f_inter f) (f_moment f) (f_ggq f) (f_ctotal f) v f), Return tt).
Proof. apply change_step. vm_compute. reflexivity. Qed.
Lemma step_total t f : add_total w t (mk f) =
  (mk (with_times (w_add w (f_total f) t) (f_vtotal f) (f_class f) (f_inter f) (f_moment f) (f_ggq f) (f_ctotal f) (f_wtotal f) f), Return tt).
Proof.
  unfold add_total. rewrite (mbind_return info _ _ (mk f) (dict_of f) eq_refl). rewrite (mbind_return _ _ _ _ _ (lift_ok _ _ _ (sub_times D f))).
  rewrite (mbind_return _ _ _ _ _ (lift_ok _ _ _ (check_times D f))). rewrite (mbind_return _ _ (mk f) (mk f) (f_total f)) by (apply lift_ok; vm_compute; reflexivity).
  apply change_step. vm_compute. reflexivity.
Qed.
Lemma step_grid k v f : forall i, In (k, i) [(BackgroundGridInfo_num_active_elements, 0); (BackgroundGridInfo_num_trimmed_elements, 1); (BackgroundGridInfo_num_full_elements, 2); (BackgroundGridInfo_num_inactive_elements, 3)] ->
  set_grid k v (mk f) = (mk (with_grid (if i =? 0 then v else f_active f) (if i =? 1 then v else f_trimmed f) (if i =? 2 then v else f_full f) (if i =? 3 then v else f_inactive f) f), Return tt).
Proof. intros i [H | [H | [H | [H | []]]]]; injection H as <- <-; apply change_step; vm_compute; reflexivity. Qed.
Lemma step_quad k v f : forall i, In (k, i) [(QuadratureInfo_represented_volume, 0); (QuadratureInfo_percentage_of_geometry_volume, 1); (QuadratureInfo_tot_num_points, 2); (QuadratureInfo_num_of_points_per_full_element, 3); (QuadratureInfo_num_of_points_per_trimmed_element, 4)] ->
  set_quadrature k v (mk f) = (mk (with_quadrature (if i =? 0 then v else f_represented f) (if i =? 1 then v else f_percent f) (if i =? 2 then v else f_points f) (if i =? 3 then v else f_per_full f) (if i =? 4 then v else f_per_trimmed f) f), Return tt).
Proof. intros i [H | [H | [H | [H | [H | []]]]]]; injection H as <- <-; apply change_step; vm_compute; reflexivity. Qed.

(** The list of condition infos. *)
Lemma infos_list (f : facts D) : key_list (dict_of f) MainInfo_conditions_infos_list = Ok (map (fun c => Some (cdict c)) (f_infos f)).
Proof. reflexivity. Qed.
Lemma infos_set (f : facts D) l : key_set_list (dict_of f) MainInfo_conditions_infos_list (map (fun c => Some (cdict c)) l) = Ok (dict_of (with_infos l f)).
Proof. reflexivity. Qed.
Lemma step_push f c : push_info (cdict c) (mk f) = (mk (with_infos (f_infos f ++ [c]) f), Return tt).
Proof.
  apply change_step. rewrite infos_list. cbn [bind]. rewrite <- infos_set. rewrite map_app. reflexivity.
Qed.
Lemma back_map (l : list (cinfo D)) c : back (map (fun c => Some (cdict c)) (l ++ [c])) = Ok (map (fun c => Some (cdict c)) l, cdict c).
Proof. unfold back. rewrite <- map_rev, rev_app_distr. cbn [rev app map]. rewrite map_rev, rev_involutive. reflexivity. Qed.
Lemma step_change_last f l c c' g : f_infos f = l ++ [c] -> g (cdict c) = Ok (cdict c') -> change_last g (mk f) = (mk (with_infos (l ++ [c']) f), Return tt).
Proof.
  intros E G. apply change_step. rewrite infos_list, E. cbn [bind]. rewrite back_map. cbn [bind fst snd]. rewrite G. cbn [bind]. rewrite <- infos_set, map_app. reflexivity.
Qed.
Lemma step_last f l c : f_infos f = l ++ [c] -> last_info (mk f) = (mk f, Return (cdict c)).
Proof.
  intros E. unfold last_info. rewrite (mbind_return info _ _ (mk f) (dict_of f) eq_refl). apply lift_ok. rewrite infos_list, E. cbn [bind]. rewrite back_map. reflexivity.
Qed.

(** *** Settings that can be read *)
Definition readable (echo : N) : Prop := echo_level settings = Ok echo /\
  exists g a b, key_sub settings MainSettings_background_grid_settings = Ok g /\ key_get TPoint g BackgroundGridSettings_lower_bound_xyz = Ok a /\ key_get TPoint g BackgroundGridSettings_upper_bound_xyz = Ok b.
Variable echo : N.
Hypothesis Rd : readable echo.
Lemma step_box s : check_box settings s = (s, Return tt).
Proof.
  destruct Rd as (E & g & a & b & G & A & B). unfold check_box. rewrite (mbind_return _ _ _ _ _ (lift_ok _ _ _ E)). destruct (0 <? echo)%N; [|reflexivity].
  rewrite (mbind_return _ _ _ _ _ (lift_ok _ _ _ G)), (mbind_return _ _ _ _ _ (lift_ok _ _ _ A)), (mbind_return _ _ _ _ _ (lift_ok _ _ _ B)). reflexivity.
Qed.
Lemma step_print_condition c p s : ci_percent c = Some p -> print_condition_info settings (cdict c) s = (s, Return tt).
Proof.
  intros Hp. destruct c as [i a p']. cbn in Hp. subst p'. destruct Rd as (E & _). unfold print_condition_info. rewrite (mbind_return _ _ _ _ _ (lift_ok _ _ _ E)). destruct (0 <? echo)%N; [|reflexivity].
  rewrite (mbind_return _ _ _ _ _ (lift_ok _ _ _ (check_cinfo D i a p))). rewrite (mbind_return _ _ s s i) by (apply lift_ok; vm_compute; reflexivity). destruct (1 <? echo)%N; [|reflexivity].
  rewrite (mbind_return _ _ s s a) by (apply lift_ok; vm_compute; reflexivity). rewrite (mbind_return _ _ s s p) by (apply lift_ok; vm_compute; reflexivity). reflexivity.
Qed.
Lemma step_print_volume f a t p x1 x2 x3 x4 x5 x6 : f_active f = VIndex a -> f_trimmed f = VIndex t -> f_full f = VIndex x1 -> f_inactive f = VIndex x2 -> f_points f = VIndex p -> f_represented f = VDouble x3 -> f_percent f = VDouble x4 -> f_per_full f = VDouble x5 -> f_per_trimmed f = VDouble x6 ->
  print_volume_info settings (mk f) = (mk f, Return tt).
Proof.
  intros H1 H2 H3 H4 H5 H6 H7 H8 H9. destruct f. cbn in *. subst. destruct Rd as (E & _). unfold print_volume_info. rewrite (mbind_return _ _ _ _ _ (lift_ok _ _ _ E)). destruct (0 <? echo)%N; [|reflexivity].
  match goal with |- mbind info _ ?s = _ => set (s0 := s) end. rewrite (mbind_return info _ s0 s0 (st_info s0) eq_refl). unfold s0 at 1 3; cbn [st_info].
  do 2 (erewrite (mbind_return _ _ s0 s0) by (apply lift_ok; vm_compute; reflexivity)).
  do 2 (erewrite (mbind_return _ _ s0 s0) by (apply lift_ok; vm_compute; reflexivity)).
  erewrite (mbind_return _ _ s0 s0) by (apply lift_ok; vm_compute; reflexivity).
  erewrite (mbind_return _ _ s0 s0) by (apply lift_ok; vm_compute; reflexivity).
  erewrite (mbind_return _ _ s0 s0) by (apply lift_ok; vm_compute; reflexivity).
  destruct (1 <? echo)%N; [|reflexivity]. erewrite (mbind_return _ _ s0 s0) by (apply lift_ok; vm_compute; reflexivity). reflexivity.
Qed.
End Steps.
