(** The key sets of the library, one definition per key and key set.
    Source: queso/includes/register_keys.hpp:33-273 (the keys under
    QUESO_BUILD_TESTING are not part of the library).  The declaration text is
    what the preprocessor makes of the key list; the index of a key is its
    position in the enum. *)
From Coq Require Import String List.
From Verif Require Import KeysModel.
Import ListNotations.
Local Open Scope string_scope.
Local Open Scope nat_scope.

(** The key set of a registration; registrations that fail stop the program
    when it is loaded (see all_registered). *)
Definition registered (o : option keyset) : keyset :=
  match o with Some ks => ks | None => {| ks_id := 0; ks_names := []; ks_map := [] |} end.

(** register_keys.hpp:37-38 *)
Definition MainSettings_SubDict_decl : text := lit "general_settings, background_grid_settings, trimmed_quadrature_rule_settings, non_trimmed_quadrature_rule_settings".
Definition MainSettings_general_settings : key := define_key 0 (split_names MainSettings_SubDict_decl) (0, None, false).  (* :39 *)
Definition MainSettings_background_grid_settings : key := define_key 0 (split_names MainSettings_SubDict_decl) (1, None, false).  (* :40 *)
Definition MainSettings_trimmed_quadrature_rule_settings : key := define_key 0 (split_names MainSettings_SubDict_decl) (2, None, false).  (* :41 *)
Definition MainSettings_non_trimmed_quadrature_rule_settings : key := define_key 0 (split_names MainSettings_SubDict_decl) (3, None, false).  (* :42 *)
(** register_keys.hpp:43-48 *)
Definition MainSettings_SubDict_reg : option keyset :=
  register 0 MainSettings_SubDict_decl [MainSettings_general_settings; MainSettings_background_grid_settings; MainSettings_trimmed_quadrature_rule_settings; MainSettings_non_trimmed_quadrature_rule_settings].
Definition MainSettings_SubDict : keyset := registered MainSettings_SubDict_reg.

(** register_keys.hpp:50-51 *)
Definition MainSettings_List_decl : text := lit "conditions_settings_list".
Definition MainSettings_conditions_settings_list : key := define_key 1 (split_names MainSettings_List_decl) (0, None, false).  (* :52 *)
(** register_keys.hpp:53-55 *)
Definition MainSettings_List_reg : option keyset :=
  register 1 MainSettings_List_decl [MainSettings_conditions_settings_list].
Definition MainSettings_List : keyset := registered MainSettings_List_reg.

(** register_keys.hpp:59-60 *)
Definition GeneralSettings_Values_decl : text := lit "input_filename, output_directory_name, echo_level, write_output_to_file".
Definition GeneralSettings_input_filename : key := define_key 2 (split_names GeneralSettings_Values_decl) (0, Some TString, true).  (* :61 *)
Definition GeneralSettings_output_directory_name : key := define_key 2 (split_names GeneralSettings_Values_decl) (1, Some TString, true).  (* :62 *)
Definition GeneralSettings_echo_level : key := define_key 2 (split_names GeneralSettings_Values_decl) (2, Some TIndex, true).  (* :63 *)
Definition GeneralSettings_write_output_to_file : key := define_key 2 (split_names GeneralSettings_Values_decl) (3, Some TBool, true).  (* :64 *)
(** register_keys.hpp:65-70 *)
Definition GeneralSettings_Values_reg : option keyset :=
  register 2 GeneralSettings_Values_decl [GeneralSettings_input_filename; GeneralSettings_output_directory_name; GeneralSettings_echo_level; GeneralSettings_write_output_to_file].
Definition GeneralSettings_Values : keyset := registered GeneralSettings_Values_reg.

(** register_keys.hpp:74-75 *)
Definition BackgroundGridSettings_Values_decl : text := lit "grid_type, lower_bound_xyz, upper_bound_xyz, lower_bound_uvw, upper_bound_uvw, polynomial_order, number_of_elements".
Definition BackgroundGridSettings_grid_type : key := define_key 3 (split_names BackgroundGridSettings_Values_decl) (0, Some TGrid, true).  (* :76 *)
Definition BackgroundGridSettings_lower_bound_xyz : key := define_key 3 (split_names BackgroundGridSettings_Values_decl) (1, Some TPoint, true).  (* :77 *)
Definition BackgroundGridSettings_upper_bound_xyz : key := define_key 3 (split_names BackgroundGridSettings_Values_decl) (2, Some TPoint, true).  (* :78 *)
Definition BackgroundGridSettings_lower_bound_uvw : key := define_key 3 (split_names BackgroundGridSettings_Values_decl) (3, Some TPoint, true).  (* :79 *)
Definition BackgroundGridSettings_upper_bound_uvw : key := define_key 3 (split_names BackgroundGridSettings_Values_decl) (4, Some TPoint, true).  (* :80 *)
Definition BackgroundGridSettings_polynomial_order : key := define_key 3 (split_names BackgroundGridSettings_Values_decl) (5, Some TVec, true).  (* :81 *)
Definition BackgroundGridSettings_number_of_elements : key := define_key 3 (split_names BackgroundGridSettings_Values_decl) (6, Some TVec, true).  (* :82 *)
(** register_keys.hpp:83-91 *)
Definition BackgroundGridSettings_Values_reg : option keyset :=
  register 3 BackgroundGridSettings_Values_decl [BackgroundGridSettings_grid_type; BackgroundGridSettings_lower_bound_xyz; BackgroundGridSettings_upper_bound_xyz; BackgroundGridSettings_lower_bound_uvw; BackgroundGridSettings_upper_bound_uvw; BackgroundGridSettings_polynomial_order; BackgroundGridSettings_number_of_elements].
Definition BackgroundGridSettings_Values : keyset := registered BackgroundGridSettings_Values_reg.

(** register_keys.hpp:95-96 *)
Definition TrimmedQuadratureRuleSettings_Values_decl : text := lit "moment_fitting_residual, min_element_volume_ratio, min_num_boundary_triangles, neglect_elements_if_stl_is_flawed, activate_fictitious_domain_with_alpha".
Definition TrimmedQuadratureRuleSettings_moment_fitting_residual : key := define_key 4 (split_names TrimmedQuadratureRuleSettings_Values_decl) (0, Some TDouble, true).  (* :97 *)
Definition TrimmedQuadratureRuleSettings_min_element_volume_ratio : key := define_key 4 (split_names TrimmedQuadratureRuleSettings_Values_decl) (1, Some TDouble, true).  (* :98 *)
Definition TrimmedQuadratureRuleSettings_min_num_boundary_triangles : key := define_key 4 (split_names TrimmedQuadratureRuleSettings_Values_decl) (2, Some TIndex, true).  (* :99 *)
Definition TrimmedQuadratureRuleSettings_neglect_elements_if_stl_is_flawed : key := define_key 4 (split_names TrimmedQuadratureRuleSettings_Values_decl) (3, Some TBool, true).  (* :100 *)
Definition TrimmedQuadratureRuleSettings_activate_fictitious_domain_with_alpha : key := define_key 4 (split_names TrimmedQuadratureRuleSettings_Values_decl) (4, Some TDouble, false).  (* :101 *)
(** register_keys.hpp:102-108 *)
Definition TrimmedQuadratureRuleSettings_Values_reg : option keyset :=
  register 4 TrimmedQuadratureRuleSettings_Values_decl [TrimmedQuadratureRuleSettings_moment_fitting_residual; TrimmedQuadratureRuleSettings_min_element_volume_ratio; TrimmedQuadratureRuleSettings_min_num_boundary_triangles; TrimmedQuadratureRuleSettings_neglect_elements_if_stl_is_flawed; TrimmedQuadratureRuleSettings_activate_fictitious_domain_with_alpha].
Definition TrimmedQuadratureRuleSettings_Values : keyset := registered TrimmedQuadratureRuleSettings_Values_reg.

(** register_keys.hpp:112-113 *)
Definition NonTrimmedQuadratureRuleSettings_Values_decl : text := lit "integration_method".
Definition NonTrimmedQuadratureRuleSettings_integration_method : key := define_key 5 (split_names NonTrimmedQuadratureRuleSettings_Values_decl) (0, Some TMethod, true).  (* :114 *)
(** register_keys.hpp:115-117 *)
Definition NonTrimmedQuadratureRuleSettings_Values_reg : option keyset :=
  register 5 NonTrimmedQuadratureRuleSettings_Values_decl [NonTrimmedQuadratureRuleSettings_integration_method].
Definition NonTrimmedQuadratureRuleSettings_Values : keyset := registered NonTrimmedQuadratureRuleSettings_Values_reg.

(** register_keys.hpp:121-122 *)
Definition ConditionSettings_Values_decl : text := lit "condition_id, condition_type, input_filename, modulus, direction, value, penalty_factor".
Definition ConditionSettings_condition_id : key := define_key 6 (split_names ConditionSettings_Values_decl) (0, Some TIndex, true).  (* :123 *)
Definition ConditionSettings_condition_type : key := define_key 6 (split_names ConditionSettings_Values_decl) (1, Some TString, false).  (* :124 *)
Definition ConditionSettings_input_filename : key := define_key 6 (split_names ConditionSettings_Values_decl) (2, Some TString, true).  (* :125 *)
Definition ConditionSettings_modulus : key := define_key 6 (split_names ConditionSettings_Values_decl) (3, Some TDouble, false).  (* :126 *)
Definition ConditionSettings_direction : key := define_key 6 (split_names ConditionSettings_Values_decl) (4, Some TPoint, false).  (* :127 *)
Definition ConditionSettings_value : key := define_key 6 (split_names ConditionSettings_Values_decl) (5, Some TPoint, false).  (* :128 *)
Definition ConditionSettings_penalty_factor : key := define_key 6 (split_names ConditionSettings_Values_decl) (6, Some TDouble, false).  (* :129 *)
(** register_keys.hpp:130-138 *)
Definition ConditionSettings_Values_reg : option keyset :=
  register 6 ConditionSettings_Values_decl [ConditionSettings_condition_id; ConditionSettings_condition_type; ConditionSettings_input_filename; ConditionSettings_modulus; ConditionSettings_direction; ConditionSettings_value; ConditionSettings_penalty_factor].
Definition ConditionSettings_Values : keyset := registered ConditionSettings_Values_reg.

(** register_keys.hpp:144-145 *)
Definition MainInfo_SubDict_decl : text := lit "embedded_geometry_info, quadrature_info, background_grid_info, elapsed_time_info".
Definition MainInfo_embedded_geometry_info : key := define_key 7 (split_names MainInfo_SubDict_decl) (0, None, false).  (* :146 *)
Definition MainInfo_quadrature_info : key := define_key 7 (split_names MainInfo_SubDict_decl) (1, None, false).  (* :147 *)
Definition MainInfo_background_grid_info : key := define_key 7 (split_names MainInfo_SubDict_decl) (2, None, false).  (* :148 *)
Definition MainInfo_elapsed_time_info : key := define_key 7 (split_names MainInfo_SubDict_decl) (3, None, false).  (* :149 *)
(** register_keys.hpp:150-155 *)
Definition MainInfo_SubDict_reg : option keyset :=
  register 7 MainInfo_SubDict_decl [MainInfo_embedded_geometry_info; MainInfo_quadrature_info; MainInfo_background_grid_info; MainInfo_elapsed_time_info].
Definition MainInfo_SubDict : keyset := registered MainInfo_SubDict_reg.

(** register_keys.hpp:157-158 *)
Definition MainInfo_List_decl : text := lit "conditions_infos_list".
Definition MainInfo_conditions_infos_list : key := define_key 8 (split_names MainInfo_List_decl) (0, None, false).  (* :159 *)
(** register_keys.hpp:160-162 *)
Definition MainInfo_List_reg : option keyset :=
  register 8 MainInfo_List_decl [MainInfo_conditions_infos_list].
Definition MainInfo_List : keyset := registered MainInfo_List_reg.

(** register_keys.hpp:166-167 *)
Definition EmbeddedGeometryInfo_Values_decl : text := lit "is_closed, volume".
Definition EmbeddedGeometryInfo_is_closed : key := define_key 9 (split_names EmbeddedGeometryInfo_Values_decl) (0, Some TBool, true).  (* :168 *)
Definition EmbeddedGeometryInfo_volume : key := define_key 9 (split_names EmbeddedGeometryInfo_Values_decl) (1, Some TDouble, true).  (* :169 *)
(** register_keys.hpp:170-173 *)
Definition EmbeddedGeometryInfo_Values_reg : option keyset :=
  register 9 EmbeddedGeometryInfo_Values_decl [EmbeddedGeometryInfo_is_closed; EmbeddedGeometryInfo_volume].
Definition EmbeddedGeometryInfo_Values : keyset := registered EmbeddedGeometryInfo_Values_reg.

(** register_keys.hpp:177-178 *)
Definition QuadratureInfo_Values_decl : text := lit "represented_volume, percentage_of_geometry_volume, tot_num_points, num_of_points_per_full_element, num_of_points_per_trimmed_element".
Definition QuadratureInfo_represented_volume : key := define_key 10 (split_names QuadratureInfo_Values_decl) (0, Some TDouble, true).  (* :179 *)
Definition QuadratureInfo_percentage_of_geometry_volume : key := define_key 10 (split_names QuadratureInfo_Values_decl) (1, Some TDouble, true).  (* :180 *)
Definition QuadratureInfo_tot_num_points : key := define_key 10 (split_names QuadratureInfo_Values_decl) (2, Some TIndex, true).  (* :181 *)
Definition QuadratureInfo_num_of_points_per_full_element : key := define_key 10 (split_names QuadratureInfo_Values_decl) (3, Some TDouble, true).  (* :182 *)
Definition QuadratureInfo_num_of_points_per_trimmed_element : key := define_key 10 (split_names QuadratureInfo_Values_decl) (4, Some TDouble, true).  (* :183 *)
(** register_keys.hpp:184-190 *)
Definition QuadratureInfo_Values_reg : option keyset :=
  register 10 QuadratureInfo_Values_decl [QuadratureInfo_represented_volume; QuadratureInfo_percentage_of_geometry_volume; QuadratureInfo_tot_num_points; QuadratureInfo_num_of_points_per_full_element; QuadratureInfo_num_of_points_per_trimmed_element].
Definition QuadratureInfo_Values : keyset := registered QuadratureInfo_Values_reg.

(** register_keys.hpp:194-195 *)
Definition BackgroundGridInfo_Values_decl : text := lit "num_active_elements, num_trimmed_elements, num_full_elements, num_inactive_elements".
Definition BackgroundGridInfo_num_active_elements : key := define_key 11 (split_names BackgroundGridInfo_Values_decl) (0, Some TIndex, true).  (* :196 *)
Definition BackgroundGridInfo_num_trimmed_elements : key := define_key 11 (split_names BackgroundGridInfo_Values_decl) (1, Some TIndex, true).  (* :197 *)
Definition BackgroundGridInfo_num_full_elements : key := define_key 11 (split_names BackgroundGridInfo_Values_decl) (2, Some TIndex, true).  (* :198 *)
Definition BackgroundGridInfo_num_inactive_elements : key := define_key 11 (split_names BackgroundGridInfo_Values_decl) (3, Some TIndex, true).  (* :199 *)
(** register_keys.hpp:200-205 *)
Definition BackgroundGridInfo_Values_reg : option keyset :=
  register 11 BackgroundGridInfo_Values_decl [BackgroundGridInfo_num_active_elements; BackgroundGridInfo_num_trimmed_elements; BackgroundGridInfo_num_full_elements; BackgroundGridInfo_num_inactive_elements].
Definition BackgroundGridInfo_Values : keyset := registered BackgroundGridInfo_Values_reg.

(** register_keys.hpp:209-210 *)
Definition ConditionInfo_Values_decl : text := lit "condition_id, surf_area, perc_surf_area_in_active_domain".
Definition ConditionInfo_condition_id : key := define_key 12 (split_names ConditionInfo_Values_decl) (0, Some TIndex, true).  (* :211 *)
Definition ConditionInfo_surf_area : key := define_key 12 (split_names ConditionInfo_Values_decl) (1, Some TDouble, true).  (* :212 *)
Definition ConditionInfo_perc_surf_area_in_active_domain : key := define_key 12 (split_names ConditionInfo_Values_decl) (2, Some TDouble, true).  (* :213 *)
(** register_keys.hpp:214-218 *)
Definition ConditionInfo_Values_reg : option keyset :=
  register 12 ConditionInfo_Values_decl [ConditionInfo_condition_id; ConditionInfo_surf_area; ConditionInfo_perc_surf_area_in_active_domain].
Definition ConditionInfo_Values : keyset := registered ConditionInfo_Values_reg.

(** register_keys.hpp:222-223 *)
Definition ElapsedTimeInfo_Values_decl : text := lit "total".
Definition ElapsedTimeInfo_total : key := define_key 13 (split_names ElapsedTimeInfo_Values_decl) (0, Some TDouble, true).  (* :224 *)
(** register_keys.hpp:225-227 *)
Definition ElapsedTimeInfo_Values_reg : option keyset :=
  register 13 ElapsedTimeInfo_Values_decl [ElapsedTimeInfo_total].
Definition ElapsedTimeInfo_Values : keyset := registered ElapsedTimeInfo_Values_reg.

(** register_keys.hpp:229-230 *)
Definition ElapsedTimeInfo_SubDict_decl : text := lit "volume_time_info, conditions_time_info, write_files_time_info".
Definition ElapsedTimeInfo_volume_time_info : key := define_key 14 (split_names ElapsedTimeInfo_SubDict_decl) (0, None, false).  (* :231 *)
Definition ElapsedTimeInfo_conditions_time_info : key := define_key 14 (split_names ElapsedTimeInfo_SubDict_decl) (1, None, false).  (* :232 *)
Definition ElapsedTimeInfo_write_files_time_info : key := define_key 14 (split_names ElapsedTimeInfo_SubDict_decl) (2, None, false).  (* :233 *)
(** register_keys.hpp:234-238 *)
Definition ElapsedTimeInfo_SubDict_reg : option keyset :=
  register 14 ElapsedTimeInfo_SubDict_decl [ElapsedTimeInfo_volume_time_info; ElapsedTimeInfo_conditions_time_info; ElapsedTimeInfo_write_files_time_info].
Definition ElapsedTimeInfo_SubDict : keyset := registered ElapsedTimeInfo_SubDict_reg.

(** register_keys.hpp:242-243 *)
Definition VolumeTimeInfo_Values_decl : text := lit "total, classification_of_elements, computation_of_intersections, solution_of_moment_fitting_eqs, construction_of_ggq_rules".
Definition VolumeTimeInfo_total : key := define_key 15 (split_names VolumeTimeInfo_Values_decl) (0, Some TDouble, true).  (* :244 *)
Definition VolumeTimeInfo_classification_of_elements : key := define_key 15 (split_names VolumeTimeInfo_Values_decl) (1, Some TDouble, true).  (* :245 *)
Definition VolumeTimeInfo_computation_of_intersections : key := define_key 15 (split_names VolumeTimeInfo_Values_decl) (2, Some TDouble, true).  (* :246 *)
Definition VolumeTimeInfo_solution_of_moment_fitting_eqs : key := define_key 15 (split_names VolumeTimeInfo_Values_decl) (3, Some TDouble, true).  (* :247 *)
Definition VolumeTimeInfo_construction_of_ggq_rules : key := define_key 15 (split_names VolumeTimeInfo_Values_decl) (4, Some TDouble, true).  (* :248 *)
(** register_keys.hpp:249-255 *)
Definition VolumeTimeInfo_Values_reg : option keyset :=
  register 15 VolumeTimeInfo_Values_decl [VolumeTimeInfo_total; VolumeTimeInfo_classification_of_elements; VolumeTimeInfo_computation_of_intersections; VolumeTimeInfo_solution_of_moment_fitting_eqs; VolumeTimeInfo_construction_of_ggq_rules].
Definition VolumeTimeInfo_Values : keyset := registered VolumeTimeInfo_Values_reg.

(** register_keys.hpp:259-260 *)
Definition ConditionsTimeInfo_Values_decl : text := lit "total".
Definition ConditionsTimeInfo_total : key := define_key 16 (split_names ConditionsTimeInfo_Values_decl) (0, Some TDouble, true).  (* :261 *)
(** register_keys.hpp:262-264 *)
Definition ConditionsTimeInfo_Values_reg : option keyset :=
  register 16 ConditionsTimeInfo_Values_decl [ConditionsTimeInfo_total].
Definition ConditionsTimeInfo_Values : keyset := registered ConditionsTimeInfo_Values_reg.

(** register_keys.hpp:268-269 *)
Definition WriteFilesTimeInfo_Values_decl : text := lit "total".
Definition WriteFilesTimeInfo_total : key := define_key 17 (split_names WriteFilesTimeInfo_Values_decl) (0, Some TDouble, true).  (* :270 *)
(** register_keys.hpp:271-273 *)
Definition WriteFilesTimeInfo_Values_reg : option keyset :=
  register 17 WriteFilesTimeInfo_Values_decl [WriteFilesTimeInfo_total].
Definition WriteFilesTimeInfo_Values : keyset := registered WriteFilesTimeInfo_Values_reg.

(** All registrations. *)
Definition all_registrations : list (option keyset) :=
  [MainSettings_SubDict_reg; MainSettings_List_reg; GeneralSettings_Values_reg; BackgroundGridSettings_Values_reg; TrimmedQuadratureRuleSettings_Values_reg; NonTrimmedQuadratureRuleSettings_Values_reg; ConditionSettings_Values_reg; MainInfo_SubDict_reg; MainInfo_List_reg; EmbeddedGeometryInfo_Values_reg; QuadratureInfo_Values_reg; BackgroundGridInfo_Values_reg; ConditionInfo_Values_reg; ElapsedTimeInfo_Values_reg; ElapsedTimeInfo_SubDict_reg; VolumeTimeInfo_Values_reg; ConditionsTimeInfo_Values_reg; WriteFilesTimeInfo_Values_reg].
Definition all_keysets : list keyset :=
  [MainSettings_SubDict; MainSettings_List; GeneralSettings_Values; BackgroundGridSettings_Values; TrimmedQuadratureRuleSettings_Values; NonTrimmedQuadratureRuleSettings_Values; ConditionSettings_Values; MainInfo_SubDict; MainInfo_List; EmbeddedGeometryInfo_Values; QuadratureInfo_Values; BackgroundGridInfo_Values; ConditionInfo_Values; ElapsedTimeInfo_Values; ElapsedTimeInfo_SubDict; VolumeTimeInfo_Values; ConditionsTimeInfo_Values; WriteFilesTimeInfo_Values].
