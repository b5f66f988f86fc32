{
 "claims": [
  {
   "property": "C01",
   "status": "proved",
   "theorems": [
    "C01_number_of_position",
    "C01_position_of_number",
    "C01_no_shared_number"
   ],
   "note": "all grids with n>=1"
  },
  {
   "property": "C02",
   "status": "proved",
   "theorems": [
    "C02_cell_boxes_tile_global",
    "C02_cell_boxes_tile_parametric",
    "C02_cell_volume"
   ],
   "note": "over R (no rounding); also equal cell volume"
  },
  {
   "property": "C03",
   "status": "proved",
   "theorems": [
    "C03_stepping_visits_each_cell_once",
    "C03_middle_iff_face_neighbour",
    "C03_step_stays_in_box"
   ],
   "note": "all sub-boxes, all six directions"
  },
  {
   "property": "C04",
   "status": "proved",
   "theorems": [
    "C04_reverse_step_undoes_step"
   ],
   "note": ""
  },
  {
   "property": "C05",
   "status": "proved",
   "theorems": [
    "C05_is_end_iff_no_face_neighbour",
    "C05_is_end_iff_no_neighbour_cell"
   ],
   "note": "two characterisations"
  },
  {
   "property": "C06",
   "status": "proved",
   "theorems": [
    "C06_lookup_returns_created",
    "C06_listing_is_created_set",
    "C06_ids_occur_once",
    "C06_listing_counts_ids",
    "C06_counters"
   ],
   "note": "all histories of creations"
  },
  {
   "property": "C07",
   "status": "proved",
   "theorems": [
    "C07_duplicate_rejected",
    "C07_failed_build_ignored",
    "C07_fresh_accepted"
   ],
   "note": ""
  },
  {
   "property": "C08",
   "status": "proved",
   "theorems": [
    "C08_order_independent",
    "C08_summary_order_independent",
    "C08_created_elements"
   ],
   "note": "the parallel creation loop of ComputeVolume; the GGQ assembly that follows the loop is sequential and modelled separately (C15-C17)"
  },
  {
   "property": "C09",
   "status": "proved",
   "theorems": [
    "C09_next_element",
    "C09_is_end"
   ],
   "note": ""
  },
  {
   "property": "C10",
   "status": "proved",
   "theorems": [
    "C10_slabs_cover_once",
    "C10_slabs_are_boxes_in_grid",
    "C10_at_most_one_slab_per_thread"
   ],
   "note": ""
  },
  {
   "property": "C11",
   "status": "proved",
   "theorems": [
    "C11_classification_terminates_trimmed_iff_cut"
   ],
   "note": "no hypothesis on the geometric tests; all publication orders of the slab groups"
  },
  {
   "property": "C12",
   "status": "proved",
   "theorems": [
    "C12_connected_cells_same_state",
    "C12_state_is_majority_of_region",
    "C12_region_exists"
   ],
   "note": "requires the face test to be symmetric; votes include the wrapped-around cells (see C14)"
  },
  {
   "property": "C13",
   "status": "proved",
   "theorems": [
    "C13_independent_of_threads_and_order",
    "C13_asymmetric_test_refuted"
   ],
   "note": "positive theorem for symmetric face tests and machine-checked counterexample for asymmetric ones"
  },
  {
   "property": "C14",
   "status": "proved",
   "theorems": [
    "C14_only_face_neighbours_vote_refuted",
    "C14_guarded_only_face_neighbours_vote"
   ],
   "note": "the unguarded claim is refuted by a witness; the guarded claim is proved"
  },
  {
   "property": "C15",
   "status": "proved",
   "theorems": [
    "C15_boxes_partition_untrimmed",
    "C15_any_priority",
    "C15_coefficients_positive"
   ],
   "note": "any coefficients, any delivery order of the queue; coefficients exact rationals"
  },
  {
   "property": "C16",
   "status": "proved",
   "theorems": [
    "C16_boxes_are_cuboids_without_wrap",
    "C16_boxes_are_cuboids_interior",
    "C16_unguarded_refuted"
   ],
   "note": "guarded theorem (two guards) and machine-checked counterexample without the guard"
  },
  {
   "property": "C17",
   "status": "proved",
   "theorems": [
    "C17_every_point_given_to_one_element",
    "C17_total_weight_is_box_volume_times_rule",
    "C17_points_inside_own_element",
    "C17_assembled_boxes_keep_their_volume"
   ],
   "note": "over R; points closer than the tolerance to the upper end of the box are excluded by rule_fits"
  },
  {
   "property": "C18",
   "status": "proved",
   "theorems": [
    "C18_ggq_rules_well_formed"
   ],
   "note": "exact rationals for the decimal tables; every number of knot spans via one check per residue class; symmetry and sum up to 1e-14"
  },
  {
   "property": "C19",
   "status": "proved",
   "theorems": [
    "C19_gauss_integrates_polynomials"
   ],
   "note": "Every Gauss rule the factory can return is shown (from the tabulated decimals) to integrate every polynomial within its degree on every box up to a relative error of 4e-14 of the size of the polynomial."
  },
  {
   "property": "C20",
   "status": "proved",
   "theorems": [
    "C20_gauss_points_inside_positive_counted",
    "C20_gauss_weights_sum_to_cell_volume"
   ],
   "note": "Points strictly inside, weights positive, exact number of points, weights times DetJ sum to the cell volume up to a relative 4e-14."
  },
  {
   "property": "C21",
   "status": "proved",
   "theorems": [
    "C21_trimmed_weights_positive"
   ],
   "note": "For every solver outcome; std::sort only assumed to permute. Fictitious points with positive alpha included."
  },
  {
   "property": "C22",
   "status": "proved",
   "theorems": [
    "C22_trimmed_rule_size_and_origin",
    "C22_size_bound_with_zero_residual_refuted"
   ],
   "note": "Guarded positive theorem plus counterexample for residual 0."
  },
  {
   "property": "C23",
   "status": "proved",
   "theorems": [
    "C23_assembly_terminates",
    "C23_reported_residual_or_no_element",
    "C23_accepted_fit_is_accurate",
    "C23_moment_fields_have_the_right_divergence",
    "C23_rejected_fit_with_fictitious_points_refuted"
   ],
   "note": "Solver contract (non-negative weights, true residual norm) is a hypothesis only of the accuracy theorem; C62 proves the contract for the modelled solver (unless its iteration limit is reached) and states the accuracy without the hypothesis. Orders up to 8. Counterexample with fictitious points."
  },
  {
   "property": "C24",
   "status": "proved",
   "theorems": [
    "C24_elimination_undefined_iff_too_few_points",
    "C24_assembly_defined_with_enough_points",
    "C24_memory_safety_refuted"
   ],
   "note": "Exact characterisation, guarded positive theorem and reachable counterexample."
  },
  {
   "property": "C25",
   "status": "proved",
   "theorems": [
    "C25_stored_values_are_typed",
    "C25_failed_operation_changes_nothing",
    "C25_assignment_is_defined"
   ],
   "note": "For every dictionary made by the factory and changed by any history of operations by name (successful or not)."
  },
  {
   "property": "C26",
   "status": "proved",
   "theorems": [
    "C26_assignment_succeeds",
    "C26_read_back",
    "C26_other_entries_kept",
    "C26_unset_is_an_error",
    "C26_access_by_key",
    "C26_has_exact"
   ],
   "note": "Success condition, read-back, frame property, unset values, access by compile-time key."
  },
  {
   "property": "C27",
   "status": "proved",
   "theorems": [
    "C27_required_check_exact",
    "C27_required_values_readable"
   ],
   "note": "Exact characterisation of the check; afterwards every required value can be read."
  },
  {
   "property": "C28",
   "status": "proved",
   "theorems": [
    "C28_declaration_is_split",
    "C28_array_size",
    "C28_registration_exact",
    "C28_names_and_ids_biject",
    "C28_library_key_sets",
    "C28_foreign_key_refuted"
   ],
   "note": "Guarded positive theorems, all 18 key sets of the library, and a counterexample for a foreign key."
  },
  {
   "property": "C29",
   "status": "proved",
   "theorems": [
    "C29_check_exact",
    "C29_rules_exist",
    "C29_loops_end",
    "C29_factory_defaults",
    "C29_large_order_refuted",
    "C29_no_elements_refuted"
   ],
   "note": "Exact characterisation of the check, guarded safety, counterexamples for order 10 and zero elements."
  },
  {
   "property": "C30",
   "status": "proved",
   "theorems": [
    "C30_output_is_json",
    "C30_every_entry_once",
    "C30_entries_are_shown",
    "C30_string_refuted",
    "C30_number_refuted",
    "C30_null_entry_refuted"
   ],
   "note": "JSON grammar specified independently; guarded positive theorems and three counterexamples."
  },
  {
   "property": "C31",
   "status": "proved",
   "theorems": [
    "C31_file_is_concatenation",
    "C31_independent_of_buffer_size",
    "C31_prefix_at_any_point"
   ],
   "note": "Any sequence of writes and flushes, any buffer size."
  },
  {
   "property": "C32",
   "status": "proved",
   "theorems": [
    "C32_host_independent",
    "C32_bytes_of_value",
    "C32_swap_involution"
   ],
   "note": "Both byte orders of host and file."
  },
  {
   "property": "C33",
   "status": "proved",
   "theorems": [
    "C33_failure",
    "C33_binary_round_trip",
    "C33_ascii_round_trip",
    "C33_any_mesh",
    "C33_library_order",
    "C33_exact_round_trip",
    "C33_big_endian_refuted"
   ],
   "note": "Float and decimal conversions are parameters of the model with their round-trip properties as hypotheses; counterexample for big-endian hosts."
  },
  {
   "property": "C34",
   "status": "proved",
   "theorems": [
    "C34_encoding_recognised"
   ],
   "note": "All meshes and both encodings."
  },
  {
   "property": "C35",
   "status": "proved",
   "theorems": [
    "C35_vertices_ordered",
    "C35_plane_points_ordered",
    "C35_asymmetric",
    "C35_refuted"
   ],
   "note": "Guarded positive theorems for both orderings; counterexamples for every positive tolerance."
  },
  {
   "property": "C36",
   "status": "proved",
   "theorems": [
    "C36_well_formed",
    "C36_check_exact"
   ],
   "note": "All sequences of valid operations from the empty mesh; the library's check accepts exactly the well-formed meshes."
  },
  {
   "property": "C37",
   "status": "proved",
   "theorems": [
    "C37_removes_exactly_one"
   ],
   "note": "The others keep their position except the last one."
  },
  {
   "property": "C38",
   "status": "proved",
   "theorems": [
    "C38_refinement",
    "C38_count_refuted"
   ],
   "note": "Over the reals; counterexample for tiny meshes."
  },
  {
   "property": "C39",
   "status": "proved",
   "theorems": [
    "C39_append_adds",
    "C39_orientation_refuted"
   ],
   "note": "Counterexample for opposite orientations."
  },
  {
   "property": "C40",
   "status": "proved",
   "theorems": [
    "C40_box_mesh"
   ],
   "note": "All boxes, over the reals."
  },
  {
   "property": "C41",
   "status": "proved",
   "theorems": [
    "C41_bounding_box",
    "C41_empty_mesh"
   ],
   "note": "Includes the empty mesh."
  },
  {
   "property": "C42",
   "status": "proved",
   "theorems": [
    "C42_parallel_equals_sequential",
    "C42_all_triangles",
    "C42_large_mesh_refuted"
   ],
   "note": "Every partition of the iterations among threads, in any order; over the reals; counterexample with 2^31 triangles."
  },
  {
   "property": "C43",
   "status": "proved",
   "theorems": [
    "C43_integration_points",
    "C43_weights_and_points",
    "C43_methods"
   ],
   "note": "Also exactness for all polynomials (products of powers of barycentric coordinates) up to the degree of the method; over the reals, table constants as printed."
  },
  {
   "property": "C44",
   "status": "proved",
   "theorems": [
    "C44_integrated_is_antiderivative",
    "C44_shape_functions_are_legendre",
    "C44_shape_functions_are_orthogonal",
    "C44_orders_above_8_are_zero"
   ],
   "note": "All orders: the integrated shape function is an antiderivative of the shape function. Orders 0..8: shape functions are the Legendre polynomials (Bonnet recursion) and orthogonal. Orders above 8 return 0."
  },
  {
   "property": "C45",
   "status": "proved",
   "theorems": [
    "C45_points_round_trip",
    "C45_boxes_onto_boxes",
    "C45_corners_onto_corners",
    "C45_volume_points_round_trip",
    "C45_boundary_points_round_trip",
    "C45_boundary_area_and_normal_of_the_mapped_surface"
   ],
   "note": "Round trips of points, boxes, volume and boundary points; area scaling and normal of the mapped surface."
  },
  {
   "property": "C46",
   "status": "proved",
   "theorems": [
    "C46_safe",
    "C46_within",
    "C46_complete",
    "C46_null",
    "C46_marks",
    "C46_area",
    "C46_sides",
    "C46_contained",
    "C46_outside_refuted"
   ],
   "note": "Over the reals."
  },
  {
   "property": "C47",
   "status": "proved",
   "theorems": [
    "C47_polygon",
    "C47_clipped",
    "C47_clip_mesh"
   ],
   "note": "Over the reals; the list of triangle ids is arbitrary (the search is a separate property)."
  },
  {
   "property": "C48",
   "status": "proved",
   "theorems": [
    "C48_leaves_tile_the_root",
    "C48_counters_are_exact",
    "C48_uniform_refinement_counts",
    "C48_leaf_levels",
    "C48_stepwise_equals_direct",
    "C48_octree_points"
   ],
   "note": "For every operator, every sequence of refinement calls: tiling by dyadic cells, exact counters, level bounds, step-wise equals direct refinement, and the integration points. A leaf below the requested level remains only if all its eight sub-cells are classified outside."
  },
  {
   "property": "C49",
   "status": "proved",
   "theorems": [
    "C49_search",
    "C49_any_test",
    "C49_mesh",
    "C49_bounds",
    "C49_empty_refuted"
   ],
   "note": "Numbers are any strict weak order without NaN; removal and update of particles are not modelled (not called)."
  },
  {
   "property": "C50",
   "status": "proved",
   "theorems": [
    "C50_exact",
    "C50_no_miss",
    "C50_ids",
    "C50_any",
    "C50_classify",
    "C50_thick_refuted"
   ],
   "note": "double idealised as R. Completeness of the separating axes is proved from Helly's theorem in the plane. The guard (shrunk box not empty) is needed: C50_thick_refuted."
  },
  {
   "property": "C51",
   "status": "proved",
   "theorems": [
    "C51_no_miss",
    "C51_exact",
    "C51_positive",
    "C51_face_refuted"
   ],
   "note": "double idealised as R extended by infinities and NaN for the reciprocals. C51_face_refuted shows the false positive in the excluded case; it only costs an extra candidate."
  },
  {
   "property": "C52",
   "status": "proved",
   "theorems": [
    "C52_votes",
    "C52_bounded",
    "C52_section"
   ],
   "note": "Random directions are an arbitrary sequence. Undefined casts: see C60."
  },
  {
   "property": "C53",
   "status": "proved",
   "theorems": [
    "C53_cell_point",
    "C53_cell_box",
    "C53_spaces",
    "C53_boundary_points",
    "C53_trimmed_point",
    "C53_trimmed_bounds",
    "C53_trimmed_box",
    "C53_empty_section_refuted",
    "C53_thin_refuted",
    "C53_tolerance_refuted",
    "C53_element_points"
   ],
   "note": "double idealised as R; the inside test of the whole geometry is an oracle here (it is C52)."
  },
  {
   "property": "C54",
   "status": "proved",
   "theorems": [
    "C54_safe",
    "C54_growth_refuted",
    "C54_larger_reservation",
    "C54_on_face",
    "C54_area"
   ],
   "note": "double is R; the std::set search, both std::sort calls and IsInside are universally quantified parameters (C54_safe and C54_area assume that the set finds an equivalent element if there is one). C54_area assumes general position: ends equal or told apart, no edge almost vertical, edges that only meet at ends, each region bounded from above; see the record general in ContourGeo.v."
  },
  {
   "property": "C55",
   "status": "proved",
   "theorems": [
    "C55_schedule",
    "C55_attach",
    "C55_active",
    "C55_cover",
    "C55_once",
    "C55_numbers",
    "C55_area",
    "C55_on_plane_refuted",
    "C55_many_cells_refuted"
   ],
   "note": "double is R. C55_area needs general position (no corner, border crossing or line crossing within 1e-13 of a further plane) and within-grid; both refutations show the guards matter."
  },
  {
   "property": "C56",
   "status": "proved",
   "theorems": [
    "C56_mesh",
    "C56_elements",
    "C56_points",
    "C56_wrap_refuted",
    "C56_failing_medium"
   ],
   "note": "The reader (VtkSpec.v) is independent of the writer. double is abstract: its bit pattern and its fixed-precision text are parameters; the text must be a non-empty word. The wrap of 32-bit indices is the refuted case."
  },
  {
   "property": "C57",
   "status": "proved",
   "theorems": [
    "C57_closed_mesh",
    "C57_quality_bound",
    "C57_manifold_is_closed",
    "C57_computed_normal"
   ],
   "note": "Over the reals; closedness is the combinatorial two-manifold condition."
  },
  {
   "property": "C58",
   "status": "proved",
   "theorems": [
    "C58_any_binary_file",
    "C58_any_file",
    "C58_malformed_vertex_refuted"
   ],
   "note": "All byte sequences; counterexample for malformed vertex lines."
  },
  {
   "property": "C59",
   "status": "proved",
   "theorems": [
    "C59_ray_triangle"
   ],
   "note": "double idealised as R."
  },
  {
   "property": "C60",
   "status": "proved",
   "theorems": [
    "C60_closed",
    "C60_open",
    "C60_general_position",
    "C60_parallel_refuted"
   ],
   "note": "double idealised as R. Whether parity of crossings is geometric containment (Jordan) is not proved. C60_parallel_refuted: a parallel triangle makes the closed cast read variables that are not set."
  },
  {
   "property": "C61",
   "status": "proved",
   "theorems": [
    "C61_one_mesh",
    "C61_binary",
    "C61_ascii",
    "C61_failure",
    "C61_count"
   ],
   "note": "double/float conversion, decimal text and the point comparison are parameters as for C33; opening the file is assumed to succeed."
  },
  {
   "property": "C62",
   "status": "proved",
   "theorems": [
    "C62_solver_total_and_feasible",
    "C62_solver_optimal",
    "C62_bad_dimensions",
    "C62_accepted_fit_is_accurate"
   ],
   "note": "Exact real arithmetic. The whole iteration (selection, Householder step, triangular solve, ratio test, Givens rotations on removal) is modelled. That mode 3 (iteration limit) is reachable is neither proved nor excluded."
  },
  {
   "property": "C63",
   "status": "proved",
   "theorems": [
    "C63_ggq_rules_integrate_splines",
    "C63_galerkin_integrals"
   ],
   "note": "Table literals as exact rationals, exact arithmetic in the construction. The error is bounded by a certificate per knot span (multiples of the end derivatives that cancel between neighbours), checked once per class of numbers of spans modulo 4; the repeated blocks are handled by induction."
  },
  {
   "property": "C64",
   "status": "proved",
   "theorems": [
    "C64_settings_files_round_trip",
    "C64_read_is_safe",
    "C64_no_conditions_refuted",
    "C64_negative_integer_refuted",
    "C64_not_set_string_refuted",
    "C64_precision_refuted"
   ],
   "note": "json.load is the parser of C30's grammar; pybind11's overload resolution for SetValue is modelled (two passes, conversions), doubles are abstract with a printing function, conversion from integers and float(text)."
  },
  {
   "property": "C65",
   "status": "proved",
   "theorems": [
    "C65_choice",
    "C65_ends",
    "C65_guarantees",
    "C65_empty",
    "C65_inside"
   ],
   "note": "Real arithmetic; the inside test used for the faces is an arbitrary function (C52 is about it); the random numbers are an arbitrary sequence in [1,100]."
  },
  {
   "property": "C66",
   "status": "proved",
   "theorems": [
    "C66_divergence_theorem",
    "C66_region",
    "C66_box",
    "C66_moments",
    "C66_volume",
    "C66_cell",
    "C66_degree_refuted"
   ],
   "note": "Real arithmetic. Closed means that for every directed edge the reverse edge occurs equally often. The enclosed integral is the sum of the signed integrals over the cones from any apex; for a surface that bounds a region once this is the integral over the region. Total orders above 5 are outside the guard (C66_degree_refuted)."
  },
  {
   "property": "C67",
   "status": "proved",
   "theorems": [
    "C67_elements",
    "C67_schedule",
    "C67_volume",
    "C67_region",
    "C67_points",
    "C67_solver"
   ],
   "note": "Real arithmetic. The classification of cells is a parameter (modelled and proved in C18, C19). Composition of C11, C16, C17, C22, C23, C38, C42, C62, C63, C65, C66. The solver hypothesis is discharged by C67_solver whenever the solver returns mode 1 (C62)."
  },
  {
   "property": "C68",
   "status": "proved",
   "theorems": [
    "C68_direction",
    "C68_some_ray",
    "C68_same_side",
    "C68_far",
    "C68_casts",
    "C68_inside",
    "C68_cells",
    "C68_open_refuted",
    "C68_small_refuted"
   ],
   "note": "Parity of ray crossings is proved for all closed triangle lists by counting signed crossings (the sum over the closed surface of the signs with which the cone over an edge sees the ray is zero), no Jordan theorem is assumed. Arithmetic is in R; the guards are triangles larger than 100 ZEROTOL, the clearance of the point and the width of the cell; both refutations show that closedness and the size guard are needed."
  },
  {
   "property": "C69",
   "status": "proved",
   "theorems": [
    "C69_spline_integrals",
    "C69_mass_matrix",
    "C69_rules_fit"
   ],
   "note": "Composition of C16, C17, C18, C63 and C67 over R; splines are given by their polynomial coefficients per cell and integrals by antiderivatives. The bound includes the snapping of points by up to 1e-10 (hence the term 1e-9 / cell width) and the rounding of the tabulated rules."
  },
  {
   "property": "C70",
   "status": "proved",
   "theorems": [
    "C70_defined",
    "C70_threads",
    "C70_trimmed",
    "C70_region",
    "C70_vote",
    "C70_inside",
    "C70_exact",
    "C70_full",
    "C70_no_votes_refuted"
   ],
   "note": "Over R. Enclosed means that the signed number of crossings of a ray in general position is not even (C68). The geometric tests that are parameters of the model of the flood fill (C10 to C12) are here the models of the separating axis test, the clipper and the ray casts. C70_no_votes_refuted is the counterexample for grids without a cut cell. The guards clear_view and sure are about the positions of triangles relative to the centres of cells; C70_example shows a grid of three cells and a surface with a cavity that meets all of them."
  },
  {
   "property": "C71",
   "status": "proved",
   "theorems": [
    "C71_defined",
    "C71_knots",
    "C71_control_points",
    "C71_linear",
    "C71_element_map"
   ],
   "note": "Over R. numpy and scipy functions (arange, the constructor of BSpline, insert) are modelled by their documented behaviour; insert is Boehm's algorithm, with arbitrary padding of the coefficient array. The specification evaluates splines by the Cox-de Boor recursion on a knot span, which is also how the end points of the parameter range are covered."
  },
  {
   "property": "C72",
   "status": "proved",
   "theorems": [
    "C72_times",
    "C72_total_is_sum",
    "C72_counts",
    "C72_conditions",
    "C72_complete",
    "C72_all_is_sequence",
    "C72_written",
    "C72_condition_files",
    "C72_other_files",
    "C72_two_writes_refuted",
    "C72_exception_refuted",
    "C72_same_identifier_refuted"
   ],
   "note": "Doubles are a type with the operations used; C72_total_is_sum is over R. The computations on meshes are parameters of the session (modelled in VolumeModel, ConditionModel, FloodModel); they may throw where the code can throw. The measured times are recorded in a ghost list. The writers and readers are those of C33, C56, C61 and C30."
  },
  {
   "property": "C73",
   "status": "proved",
   "theorems": [
    "C73_paths",
    "C73_output_directory",
    "C73_failed_start",
    "C73_working_directory_refuted",
    "C73_absolute_refuted",
    "C73_input_deleted",
    "C73_settings",
    "C73_run_once",
    "C73_rejected",
    "C73_references",
    "C73_info_reference",
    "C73_kept_settings",
    "C73_settings_before_run",
    "C73_rejected_reference_refuted",
    "C73_deleted_refuted",
    "C73_points",
    "C73_number_of_points"
   ],
   "note": "File system without links and other processes, the user may change everything in it. The settings file is read by the model of C64, the model is that of C72. Lifetimes follow pybind11 (reference_internal keeps the returning object alive; an object that is already known to Python keeps its first owner)."
  },
  {
   "property": "C74",
   "status": "proved",
   "theorems": [
    "C74_build",
    "C74_undefined",
    "C74_vertices",
    "C74_triangles",
    "C74_loop",
    "C74_kept",
    "C74_reserved",
    "C74_grow_refuted",
    "C74_reserve_refuted",
    "C74_dropped_refuted",
    "C74_exhausted_refuted",
    "C74_endless"
   ],
   "note": "One mesh, since meshes share nothing; allocations succeed; the normal of three points and the growth of vectors are arbitrary functions. A read of released memory or past the end of a vector is a separate outcome."
  },
  {
   "property": "C75",
   "status": "proved",
   "theorems": [
    "C75_no_race",
    "C75_own_cells",
    "C75_interleaving",
    "C75_trimmed",
    "C75_same_result",
    "C75_connected",
    "C75_executes",
    "C75_count_race_refuted",
    "C75_count"
   ],
   "note": "Accesses are the writes to the vector of states and the appends in the critical section; the loop reads nothing that another thread writes. The marks of visited cells are private to each thread. The geometric queries are functions of the cell, i.e. races inside them are not covered. Memory is sequentially consistent, which C++ guarantees for programs without data races."
  },
  {
   "property": "C76",
   "status": "proved",
   "theorems": [
    "C76_faces",
    "C76_close",
    "C76_tiles",
    "C76_parametric",
    "C76_finite",
    "C76_end_refuted",
    "C76_width_refuted"
   ],
   "note": "Doubles are the numbers of the format binary64 of the library Flocq (no axioms of its own), rounding to nearest, ties to even. Infinities are not modelled; C76_finite shows when none arise. A compiler that contracts only one of the two expressions for a common face is not covered."
  },
  {
   "property": "C77",
   "status": "proved",
   "theorems": [
    "C77_no_exception",
    "C77_within",
    "C77_marks",
    "C77_null",
    "C77_contained",
    "C77_edges",
    "C77_room",
    "C77_kept",
    "C77_hull_refuted"
   ],
   "note": "Doubles as in C76. Infinities are not modelled: coordinates whose difference overflows are not covered. That a polygon never gets more than nine vertices is proved for all six faces in exact arithmetic only (C46); here the exception for it is an outcome of its own, excluded for polygons with up to six vertices (C77_room)."
  },
  {
   "property": "C78",
   "status": "proved",
   "theorems": [
    "C78_corner",
    "C78_monotone",
    "C78_close",
    "C78_inside",
    "C78_round_trip",
    "C78_weights",
    "C78_positions",
    "C78_upper_refuted"
   ],
   "note": "Doubles as in C76. Infinities are not modelled. Boundary integration points are in C79."
  },
  {
   "property": "C79",
   "status": "proved",
   "theorems": [
    "C79_weight",
    "C79_normal",
    "C79_short",
    "C79_positions",
    "C79_unit_refuted"
   ],
   "note": "Doubles as in C76; std::sqrt is correctly rounded. Infinities are not modelled."
  }
 ]
}