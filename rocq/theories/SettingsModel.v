(** Model of the dictionary factory and of the settings check (release build).
    Source: queso/containers/dictionary_factory.hpp,
    queso/utilities/check_dictionary_utilities.hpp, and the accessors by
    compile-time key of queso/containers/dictionary.hpp. *)
From Coq Require Import String Ascii Bool NArith ZArith QArith Arith List.
From Verif Require Import KeysModel SettingsKeys DictModel.
Import ListNotations.
Local Open Scope nat_scope.

Section Doubles.
Variable D : Type.
(** The C++ double literals. *)
Variable dbl : Q -> D.
Notation dict := (dict D).
Notation value := (value D).

(** dictionary.hpp:158-162 SetValue by compile-time key; without a data set a
    null pointer is dereferenced. *)
Definition key_set_value (r : res dict) (k : key) (v : value) : res dict :=
  bind r (fun d =>
    match d with
    | Dict None _ _ => Undefined
    | Dict (Some ds) s l => let '(ds', o) := set_by_key ds k v in bind o (fun _ => Ok (Dict (Some ds') s l))
    end).

(** dictionary.hpp:207-219 SetSubDictionary by compile-time key. *)
Definition key_set_sub (r : res dict) (k : key) (x : res dict) : res dict :=
  bind r (fun d => bind x (fun x =>
    match d with
    | Dict _ None _ => Undefined
    | Dict v (Some (ks, l)) ll =>
        match set_nth (k_index k) (Some x) l with
        | None => Undefined
        | Some l' => Ok (Dict v (Some (ks, l')) ll)
        end
    end)).

(** dictionary.hpp:226-242 operator[] by compile-time key. *)
Definition key_sub (d : dict) (k : key) : res dict :=
  match d_subs d with
  | None => Undefined
  | Some (_, l) => match nth_error l (k_index k) with Some (Some x) => Ok x | _ => Undefined end
  end.

(** dictionary.hpp:171-175 GetRequiredValue by compile-time key. *)
Definition key_get (t : ty) (d : dict) (k : key) : res value :=
  match d_data d with None => Undefined | Some ds => get_required t ds k end.

Definition values (ks : keyset) : res dict := Ok (new_dict (Some ks) None None).

(** dictionary_factory.hpp:33-93 *)
Definition create_settings : res dict :=
  let main := Ok (new_dict None (Some MainSettings_SubDict) (Some MainSettings_List)) in   (* :37-40 *)
  let general := values GeneralSettings_Values in                                         (* :43-46 *)
  let general := key_set_value general GeneralSettings_output_directory_name (VString (lit "queso_output")) in
  let general := key_set_value general GeneralSettings_echo_level (VIndex 1) in
  let general := key_set_value general GeneralSettings_write_output_to_file (VBool true) in
  let main := key_set_sub main MainSettings_general_settings general in
  let grid := values BackgroundGridSettings_Values in                                     (* :57-60 *)
  let main := key_set_sub main MainSettings_background_grid_settings grid in
  let trimmed := values TrimmedQuadratureRuleSettings_Values in                           (* :66-69 *)
  let trimmed := key_set_value trimmed TrimmedQuadratureRuleSettings_moment_fitting_residual (VDouble (dbl (1 # 10000000000))) in
  let trimmed := key_set_value trimmed TrimmedQuadratureRuleSettings_min_element_volume_ratio (VDouble (dbl (1 # 1000))) in
  let trimmed := key_set_value trimmed TrimmedQuadratureRuleSettings_min_num_boundary_triangles (VIndex 100) in
  let trimmed := key_set_value trimmed TrimmedQuadratureRuleSettings_neglect_elements_if_stl_is_flawed (VBool true) in
  let main := key_set_sub main MainSettings_trimmed_quadrature_rule_settings trimmed in
  let non_trimmed := values NonTrimmedQuadratureRuleSettings_Values in                    (* :81-84 *)
  let non_trimmed := key_set_value non_trimmed NonTrimmedQuadratureRuleSettings_integration_method (VMethod gauss) in
  key_set_sub main MainSettings_non_trimmed_quadrature_rule_settings non_trimmed.

(** dictionary_factory.hpp:97-107 *)
Definition create_condition_settings : res dict := values ConditionSettings_Values.

(** dictionary_factory.hpp:111-200 *)
Definition create_model_info : res dict :=
  let zero := VDouble (dbl 0) in
  let main := Ok (new_dict None (Some MainInfo_SubDict) (Some MainInfo_List)) in
  let main := key_set_sub main MainInfo_embedded_geometry_info (values EmbeddedGeometryInfo_Values) in
  let main := key_set_sub main MainInfo_quadrature_info (values QuadratureInfo_Values) in
  let main := key_set_sub main MainInfo_background_grid_info (values BackgroundGridInfo_Values) in
  let times := Ok (new_dict (Some ElapsedTimeInfo_Values) (Some ElapsedTimeInfo_SubDict) None) in
  let times := key_set_value times ElapsedTimeInfo_total zero in
  let volume := values VolumeTimeInfo_Values in
  let volume := key_set_value volume VolumeTimeInfo_total zero in
  let volume := key_set_value volume VolumeTimeInfo_classification_of_elements zero in
  let volume := key_set_value volume VolumeTimeInfo_computation_of_intersections zero in
  let volume := key_set_value volume VolumeTimeInfo_construction_of_ggq_rules zero in
  let volume := key_set_value volume VolumeTimeInfo_solution_of_moment_fitting_eqs zero in
  let times := key_set_sub times ElapsedTimeInfo_volume_time_info volume in
  let conditions := key_set_value (values ConditionsTimeInfo_Values) ConditionsTimeInfo_total zero in
  let times := key_set_sub times ElapsedTimeInfo_conditions_time_info conditions in
  let files := key_set_value (values WriteFilesTimeInfo_Values) WriteFilesTimeInfo_total zero in
  let times := key_set_sub times ElapsedTimeInfo_write_files_time_info files in
  key_set_sub main MainInfo_elapsed_time_info times.

(** dictionary_factory.hpp:204-214 *)
Definition create_condition_info : res dict := values ConditionInfo_Values.

(** dictionary_factory.hpp:231-240 and :263-268 *)
Definition create (n : text) : res dict :=
  if text_eqb n (lit "Settings") then create_settings
  else if text_eqb n (lit "ConditionSettings") then create_condition_settings
  else if text_eqb n (lit "ModelInfo") then create_model_info
  else if text_eqb n (lit "ConditionInfo") then create_condition_info
  else Error.

(** static_cast<int>(integration_method), core_definitions.hpp:98 *)
Definition method_int (m : method) : nat :=
  match m with
  | gauss => 0 | gauss_reduced_1 => 1 | gauss_reduced_2 => 2
  | ggq_optimal => 3 | ggq_reduced_1 => 4 | ggq_reduced_2 => 5
  end.

(** The typed results of GetRequiredValue; get_required only returns values of
    the requested alternative, so the last cases are never used. *)
Definition as_vec (v : value) : res (N * N * N) := match v with VVec a b c => Ok (a, b, c) | _ => Abort end.
Definition as_index (v : value) : res N := match v with VIndex n => Ok n | _ => Abort end.
Definition as_method (v : value) : res method := match v with VMethod m => Ok m | _ => Abort end.
Definition as_grid (v : value) : res grid_type := match v with VGrid g => Ok g | _ => Abort end.

(** QuESo_ERROR_IF *)
Definition error_if (b : bool) : res unit := if b then Error else Ok tt.

(** check_dictionary_utilities.hpp:28-68 CheckSettings; the informative output
    (:39-46, :51) is left out. *)
Definition check_settings (d : dict) : res unit :=
  bind (check_required d) (fun _ =>                                                        (* :29 *)
  bind (key_sub d MainSettings_general_settings) (fun general =>
  bind (bind (key_get TIndex general GeneralSettings_echo_level) as_index) (fun echo =>    (* :31 *)
  bind (key_sub d MainSettings_background_grid_settings) (fun grid =>
  bind (bind (key_get TVec grid BackgroundGridSettings_polynomial_order) as_vec) (fun '(a, b, c) => (* :34 *)
  let min_order := N.min (N.min a b) c in                                                  (* :36 *)
  let max_order := N.max (N.max a b) c in                                                  (* :37 *)
  bind (error_if (min_order <? 1)%N) (fun _ =>                                             (* :38 *)
  bind (bind (key_get TVec grid BackgroundGridSettings_number_of_elements) as_vec) (fun _ => (* :49 *)
  bind (key_sub d MainSettings_non_trimmed_quadrature_rule_settings) (fun rule =>
  bind (bind (key_get TMethod rule NonTrimmedQuadratureRuleSettings_integration_method) as_method) (fun m => (* :53 *)
  bind (error_if ((min_order <? 2)%N && (method_int m =? 2))) (fun _ =>                    (* :56 *)
  let ggq := 3 <=? method_int m in                                                         (* :60 *)
  bind (error_if (ggq && (4 <? max_order)%N)) (fun _ =>                                    (* :61 *)
  bind (bind (key_get TGrid grid BackgroundGridSettings_grid_type) as_grid) (fun g =>      (* :63 *)
  bind (error_if (ggq && match g with b_spline_grid => false | _ => true end)) (fun _ =>   (* :65 *)
  error_if (ggq && (min_order <? 2)%N)))))))))))))).                                       (* :67 *)

End Doubles.

Arguments create_settings {D} dbl.
Arguments create_condition_settings {D}.
Arguments create_model_info {D} dbl.
Arguments create_condition_info {D}.
Arguments create {D} dbl n.
Arguments key_set_value {D} r k v.
Arguments key_set_sub {D} r k x.
Arguments key_sub {D} d k.
Arguments key_get {D} t d k.
Arguments check_settings {D} d.
Arguments as_vec {D} v.
Arguments as_index {D} v.
Arguments as_method {D} v.
Arguments as_grid {D} v.

(** flood_fill.cpp:79 and :127-129: the condition of the loops over a direction
    that is not the partition direction, with n elements in that direction, in
    64 bit arithmetic. *)
Definition last_index (n : N) : N := ((n + (2 ^ 64 - 1)) mod 2 ^ 64)%N.
Definition loop_condition (n i : N) : bool := (i <=? last_index n)%N.

(** flood_fill.cpp:40, :121-122: the size of the flags read at :131. *)
Definition num_flags (n : N * N * N) : N := let '(a, b, c) := n in ((a * b * c) mod 2 ^ 64)%N.
