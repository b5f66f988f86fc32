# QuESo – formal model in Rocq (Coq 8.16.1): design

## 1. Layout

* `rocq/theories/*Model.v`   – executable/total Gallina transcriptions of the C++ functions. Every definition
  cites the file and lines in `/repo` it models and names the simplifications made.
* `rocq/theories/*Spec.v`    – small specifications that do not use the model's helpers (where useful; short
  ones sit at the top of the property file).
* `rocq/theories/*Proofs.v`  – lemmas.
* `rocq/theories/*Props.v`   – only `Theorem … exact lemma. Qed.` + `Print Assumptions`, plus the `Example`s
  showing that the hypotheses are satisfiable.

## 2. Modelling conventions

* `IndexType`/`SizeType` (64-bit unsigned) are `nat`/`Z`/`N` without wrap-around unless the property is about
  wrap-around; where the C++ relies on wrap-around (`CurrentId-1`, `partition_index-other`) this is written out.
* `double` is idealised as the Coq real `R` (tolerances are kept as constants). Rounding errors of IEEE
  arithmetic are **not** modelled. Tables of decimal literals are transcribed as exact rationals.
* Exceptions (`QuESo_ERROR`) are an explicit error outcome; undefined behaviour is a distinct outcome (`UB`).
* External/numerical components are universally quantified parameters (oracles): `IsTrimmed`,
  `OnBoundedSideOfClippedSection`, `IsInside`, file system and thread schedule.
* Parallel loops are modelled by quantifying over every order in which their critical sections run
  (any permutation / interleaving of the per-iteration effects); data-race freedom of the disjoint writes
  is read off the code and noted, not proved.

## 3. Plan per property

| id | model | proof plan |
|----|-------|-----------|
| C01 | `GridModel`: the two index conversions on `nat` | div/mod arithmetic (`nia`/`lia`), bijection between number range and position box |
| C02 | `GridGeoModel`: cell boxes over `R` | archimedean search for the cell of a point; disjointness by monotonicity of `l+delta*i` |
| C03–C05 | `GridModel`: six step functions on sub-boxes, `IsEnd` | each step is "successor" in a permuted mixed-radix order of the sub-box; induction on the rank |
| C06–C09 | `GridStoreModel`: untrimmed vector, trimmed vector, id map, `MakeElement` | invariant by induction on the history, abstraction to a finite map; permutation invariance |
| C10 | `FloodModel.partitions` | arithmetic on `ceil` |
| C11–C14 | `FloodModel`: states, DFS fill with explicit stack, group merge, oracles `T` (box cut) and `P` (perturbed box cut) | DFS invariant ⇒ groups are connected components inside the slab; merging ⇒ components of the whole grid; vote multiset independent of the slabs; counterexamples by computation |
| C15–C16 | `BoxModel`: priority order, box expansion with wrap-around stepping | visited-set invariant; cuboid invariant under "no untrimmed cell on outer layer"; counterexample by computation |
| C17 | `GgqModel.assemble` over `R` | interval location argument |
| C18 | `Ggq1dModel`: array construction with explicit out-of-bounds outcome; tables as rationals | induction on number of spans; exact rational evaluation of the base tables |
| C19–C20 | `GaussModel`: tables as rationals, tensor product | linearity + exact evaluation of monomials with rational error bound, lifted to all polynomials |
| C21–C24 | `TrimmedQuadModel`: loop of moment fitting + point elimination over an arbitrary solver oracle, vectors with UB on bad erase | loop invariants; fuel bound from iteration counters; refutation witness |
| C25–C28 | `DataSetModel`/`DictModel`/`KeysModel` | invariants by induction on histories; structural induction on dictionaries; string splitting lemma |
| C29 | `SettingsModel.check` | refutation witnesses + positive theorem under the missing guards |
| C30 | `JsonModel`: printer to token list, independent JSON grammar | structural induction |
| C31–C34 | `BufferModel`, `StlModel`: bytes as `list`/`N`, host endianness parameter | refinement to concatenation; round trip; refutation for big endian |
| C35 | `PointOrderModel` over `R` (and `Z` multiples of tolerance) | refutation witnesses + positive theorem on separated sets |
| C36–C42 | `MeshModel`: vertices, triangles (indices), normals; area/volume over `R` | invariants by induction; algebra (`ring`/`field`); permutation of sums |
| C43 | `TriangleModel` | tables as rationals, `nra` |
| C44 | `PolyModel` | `Derive`-free: `derivable_pt_lim` by `auto_derive`-like lemmas of the standard library; orthogonality by FTC on the antiderivative |
| C45 | `MappingModel` | `field` |
| C46–C47 | `ClipModel`: polygon as bounded list with overflow outcome | Sutherland–Hodgman invariants |
| C48 | `OctreeModel`: tree with inside/trimmed oracle | structural induction |
| C49 | `AabbModel`: binary tree insertion with arbitrary cost decisions and rotations | multiset-of-leaves and box-containment invariants; UB on empty tree shown separately |
| C50–C51 | `SatModel`, `RayModel` over `R` | separating axis ⇒ no common point, slab intersection |
| C52 | `BrepModel.IsInside` over an arbitrary stream of ray outcomes | loop invariant |
| C53 | `CellDomainModel` | interval reasoning |
| C54 | `ContourModel` | invariants by induction; capacity hazard as explicit outcome |
| C55 | `ConditionModel` | permutation invariance |
| C56 | `VtkModel`: bytes of both encodings, an independent reader of the legacy format | reader applied to the written bytes |
| C57–C60 | `MeshModel`, `SearchModel`, `GeoQueryModel`: closedness test, search tree, ray and box queries | counting of edges; invariants of insertion; case analysis of the slab and separating axis tests |
| C61 | `ConditionStlProps` on top of `StlModel`, `BufferModel` | equality with the file of the concatenated mesh |
| C62 | `NnlsModel`: the whole active-set iteration with explicit out-of-bounds/division events | invariant: the columns are an isometric image of the input, the passive ones triangular; optimality from the dual signs; plugged into C23 |
| C63 | `Ggq1dModel` | integer check of a certificate per knot span (fixed point with proved rounding bounds), telescoping over the spans, induction over the repeated blocks, one evaluation per class modulo 4 |
| C64 | `JsonIoModel`: read_settings with the overload resolution of SetValue | induction over the dictionary and its text; invariant of the reader over all JSON values |
| C65 | `TrimSearchModel`: clipping, faces, appending and refining, and the loop over perturbed boxes | induction over the loop with the attempts as ghost list; composition of C46, C47, C54, C38 |
| C66 | the moments of `TrimmedQuadModel` with the boundary points of `DomainModel` and the rule of `TriIpModel`; `DivSpec` defines integrals by antiderivatives | divergence theorem for polynomial fields: per triangle on the cone to an apex, the side faces cancel over the edges; error of the rule by weighted barycentric bounds |
| C67 | `VolumeModel`: ComputeVolume and both element builders on top of the models above; schedules are permutations of the iterations | composition of C11, C16, C17, C22, C23, C42, C62, C65, C66; sums over permuted lists |
| C68 | no new model: the inside test and the classification of `GeoQueryModel` against `ParitySpec` (rays, crossings, inside) | signed crossing numbers: a function of edges that is odd under reversal sums to zero over a closed surface; sign analysis of determinants; compactness along segments |
| C69 | no new model: `VolumeModel` with `GgqModel`, `Ggq1dModel` against `GgqGridSpec` (splines over the grid, integrals of products) | exactness of the one-dimensional rules (C63) on every box, Lipschitz bound for moved points, tensor products, telescoping over the cells of a box, partition into boxes (C16) |
| C70 | `FloodGeoModel` (the tests of the flood fill: boxes, offsets, clipped sections, votes) on `FloodModel`, `GeoQueryModel`, `ClipModel` against `FloodGeoSpec` (outward surfaces, lines of sight) | side of the surface is constant on boxes that it does not meet (C68), sections of the clipper (C46, C47), last crossing before the end of a line of sight, sums of votes over regions (C11) |
| C71 | `BSplineModel` (b_spline_volume.py; numpy and scipy by documented behaviour) against `BSplineSpec` (Cox-de Boor recursion, averages of knots) | blossom of the affine function: knot insertion keeps coefficients at the averages; partition of unity and linear precision by induction over the degree; tensor products |
| C72 | `SessionModel` (all public functions of EmbeddedModel as programs over the model info, elements, conditions and files, with exceptions) | the model info is the image of an explicit record (`SessionProofs`); effect of each call (`SessionCalls`); invariant over all histories (`SessionHistory`); monad laws for the sequence (`SessionSequence`) |
| C73 | `PyQuesoModel` (constructor of PyQuESo on a tree of files; programs of its methods with references and deletions) | path resolution lemmas (`PyQuesoFiles`), three kinds of states that programs reach and invariants of the references (`PyQuesoProofs`) |
| C74 | Python programs with a mesh: vectors with capacity and number of their memory block, iterators, kept triangles as places in blocks (`PyMeshModel`) | invariant of all states (contents, places in range), statements only add at the ends, blocks stay while the capacity suffices (`PyMeshProofs`, `PyMeshProps`) |
| C75 | the parallel loop as traces of accesses of each thread, any distribution of the partitions, any interleaving of the accesses (`FloodThreadsModel`) | the sequential model is the effect of the traces; a partition reads and marks only its own cells; marks commute and groups are permuted (`FloodThreadsProofs`, `FloodThreadsProps`) |
| C76 | cell boxes with every operation rounded to binary64, with Flocq (`GridRoundModel`) | rounding is monotone and exact on small integers; error bounds operation by operation (`GridRoundProofs`, `GridRoundProps`) |
| C77 | the clipper with every operation rounded to binary64 (`ClipRoundModel`) | where each vertex comes from (induction over the loop), errors of one intersection point, invariant over the six planes (`ClipRoundProofs`, `ClipRoundProps`) |
| C78 | the maps and DetJ with every operation rounded to binary64 (`MapRoundModel`) | calculus of relative errors, monotonicity of rounding, error of one coordinate (`MapRoundProofs`, `MapRoundProps`) |
| C79 | area vectors, norms and boundary points with every operation rounded to binary64 (`AreaRoundModel`) | relative errors of signed numbers through products, sums of squares and square roots (`AreaRoundProofs`, `AreaRoundProps`) |

## 4. Trusted base

* Coq 8.16.1 kernel (and `vm_compute`).
* Axioms: only those of the Coq standard library's `Reals` where reals are used; listed per theorem by
  `Print Assumptions` in the `*Props.v` files and summarised in section 5.
* The reading of the C++ code: the model is a hand transcription.

## 5. Status, assumptions and deviations

`MANIFEST.json` lists the theorems of every property. A property whose literal wording is false of the code is stated in
`properties.jsonl` with the guard under which it holds and, next to the guarded theorem, a `..._refuted` theorem with a
concrete counterexample to the unguarded wording.

### 5.1 Axioms per theorem (output of `Print Assumptions`)

All axioms come from the standard library: `ClassicalDedekindReals.sig_forall_dec`, `ClassicalDedekindReals.sig_not_dec` and
`FunctionalExtensionality.functional_extensionality_dep` (all three through `Reals`), and `Classical_Prop.classic`. The library Flocq is used in the files
`GridRound*` (C76), `ClipRound*` (C77), `MapRound*` (C78) and `AreaRound*` (C79) only; it adds no axioms of its own.

* **closed under the global context (no axioms)**: `C01_no_shared_number`, `C01_number_of_position`, `C01_position_of_number`, `C03_middle_iff_face_neighbour`, `C03_step_stays_in_box`, `C03_stepping_visits_each_cell_once`, `C04_reverse_step_undoes_step`, `C05_is_end_iff_no_face_neighbour`, `C05_is_end_iff_no_neighbour_cell`, `C06_counters`, `C06_ids_occur_once`, `C06_listing_counts_ids`, `C06_listing_is_created_set`, `C06_lookup_returns_created`, `C07_duplicate_rejected`, `C07_failed_build_ignored`, `C07_fresh_accepted`, `C08_created_elements`, `C08_order_independent`, `C09_is_end`, `C09_next_element`, `C10_at_most_one_slab_per_thread`, `C10_slabs_are_boxes_in_grid`, `C10_slabs_cover_once`, `C11_classification_terminates_trimmed_iff_cut`, `C12_connected_cells_same_state`, `C12_region_exists`, `C12_state_is_majority_of_region`, `C13_asymmetric_test_refuted`, `C13_independent_of_threads_and_order`, `C14_guarded_only_face_neighbours_vote`, `C14_only_face_neighbours_vote_refuted`, `C15_any_priority`, `C15_boxes_partition_untrimmed`, `C15_coefficients_positive`, `C16_boxes_are_cuboids_interior`, `C16_boxes_are_cuboids_without_wrap`, `C16_unguarded_refuted`, `C18_ggq_rules_well_formed`, `C25_assignment_is_defined`, `C25_failed_operation_changes_nothing`, `C25_stored_values_are_typed`, `C26_access_by_key`, `C26_assignment_succeeds`, `C26_has_exact`, `C26_other_entries_kept`, `C26_read_back`, `C26_unset_is_an_error`, `C27_required_check_exact`, `C27_required_values_readable`, `C28_array_size`, `C28_declaration_is_split`, `C28_foreign_key_refuted`, `C28_library_key_sets`, `C28_names_and_ids_biject`, `C28_registration_exact`, `C29_check_exact`, `C29_factory_defaults`, `C29_large_order_refuted`, `C29_loops_end`, `C29_no_elements_refuted`, `C29_rules_exist`, `C30_entries_are_shown`, `C30_every_entry_once`, `C30_null_entry_refuted`, `C30_number_refuted`, `C30_output_is_json`, `C30_string_refuted`, `C31_file_is_concatenation`, `C31_independent_of_buffer_size`, `C31_prefix_at_any_point`, `C32_bytes_of_value`, `C32_host_independent`, `C32_swap_involution`, `C33_any_mesh`, `C33_ascii_round_trip`, `C33_big_endian_refuted`, `C33_binary_round_trip`, `C33_exact_round_trip`, `C33_failure`, `C33_library_order`, `C34_encoding_recognised`, `C35_asymmetric`, `C35_plane_points_ordered`, `C35_refuted`, `C35_vertices_ordered`, `C36_check_exact`, `C37_removes_exactly_one`, `C42_all_triangles`, `C48_counters_are_exact`, `C49_any_test`, `C49_bounds`, `C49_empty_refuted`, `C49_mesh`, `C49_search`, `C56_elements`, `C56_failing_medium`, `C56_mesh`, `C56_points`, `C56_wrap_refuted`, `C58_any_binary_file`, `C58_any_file`, `C58_malformed_vertex_refuted`, `C61_ascii`, `C61_binary`, `C61_count`, `C61_failure`, `C61_one_mesh`, `C64_negative_integer_refuted`, `C64_no_conditions_refuted`, `C64_not_set_string_refuted`, `C64_precision_refuted`, `C64_read_is_safe`, `C64_settings_files_round_trip`, `C72_all_is_sequence`, `C72_complete`, `C72_condition_files`, `C72_conditions`, `C72_counts`, `C72_exception_refuted`, `C72_other_files`, `C72_same_identifier_refuted`, `C72_times`, `C72_two_writes_refuted`, `C72_written`, `C73_absolute_refuted`, `C73_deleted_refuted`, `C73_failed_start`, `C73_info_reference`, `C73_input_deleted`, `C73_kept_settings`, `C73_number_of_points`, `C73_output_directory`, `C73_paths`, `C73_points`, `C73_references`, `C73_rejected`, `C73_rejected_reference_refuted`, `C73_run_once`, `C73_settings`, `C73_settings_before_run`, `C73_working_directory_refuted`, `C74_build`, `C74_dropped_refuted`, `C74_endless`, `C74_exhausted_refuted`, `C74_grow_refuted`, `C74_kept`, `C74_loop`, `C74_reserve_refuted`, `C74_reserved`, `C74_triangles`, `C74_undefined`, `C74_vertices`, `C75_connected`, `C75_count`, `C75_count_race_refuted`, `C75_executes`, `C75_interleaving`, `C75_no_race`, `C75_own_cells`, `C75_same_result`, `C75_trimmed`.
* **sig_forall_dec**: `C57_manifold_is_closed`.
* **sig_forall_dec, functional_extensionality_dep**: `C02_cell_boxes_tile_global`, `C02_cell_boxes_tile_parametric`, `C02_cell_volume`, `C08_summary_order_independent`, `C17_assembled_boxes_keep_their_volume`, `C17_every_point_given_to_one_element`, `C17_points_inside_own_element`, `C17_total_weight_is_box_volume_times_rule`, `C19_gauss_integrates_polynomials`, `C20_gauss_points_inside_positive_counted`, `C20_gauss_weights_sum_to_cell_volume`, `C23_moment_fields_have_the_right_divergence`, `C41_bounding_box`, `C41_empty_mesh`, `C44_integrated_is_antiderivative`, `C44_orders_above_8_are_zero`, `C44_shape_functions_are_legendre`, `C44_shape_functions_are_orthogonal`, `C45_boxes_onto_boxes`, `C45_corners_onto_corners`, `C45_points_round_trip`, `C45_volume_points_round_trip`, `C46_complete`, `C46_contained`, `C46_marks`, `C46_null`, `C46_safe`, `C46_within`, `C47_polygon`, `C48_leaf_levels`, `C48_leaves_tile_the_root`, `C48_octree_points`, `C48_stepwise_equals_direct`, `C48_uniform_refinement_counts`, `C50_any`, `C50_exact`, `C50_ids`, `C50_no_miss`, `C50_thick_refuted`, `C51_exact`, `C51_face_refuted`, `C51_no_miss`, `C51_positive`, `C53_cell_box`, `C53_cell_point`, `C53_element_points`, `C53_spaces`, `C53_thin_refuted`, `C53_tolerance_refuted`, `C53_trimmed_bounds`, `C54_growth_refuted`, `C54_larger_reservation`, `C54_on_face`, `C54_safe`, `C59_ray_triangle`, `C68_direction`, `C68_open_refuted`, `C68_some_ray`, `C69_rules_fit`, `C71_control_points`, `C71_defined`, `C71_element_map`, `C71_knots`, `C71_linear`, `C72_total_is_sum`.
* **sig_forall_dec, sig_not_dec, functional_extensionality_dep**: `C21_trimmed_weights_positive`, `C22_size_bound_with_zero_residual_refuted`, `C22_trimmed_rule_size_and_origin`, `C23_accepted_fit_is_accurate`, `C23_assembly_terminates`, `C23_rejected_fit_with_fictitious_points_refuted`, `C23_reported_residual_or_no_element`, `C24_assembly_defined_with_enough_points`, `C24_elimination_undefined_iff_too_few_points`, `C24_memory_safety_refuted`, `C36_well_formed`, `C38_count_refuted`, `C38_refinement`, `C39_append_adds`, `C39_orientation_refuted`, `C40_box_mesh`, `C42_large_mesh_refuted`, `C42_parallel_equals_sequential`, `C43_integration_points`, `C43_methods`, `C43_weights_and_points`, `C45_boundary_area_and_normal_of_the_mapped_surface`, `C45_boundary_points_round_trip`, `C46_area`, `C46_outside_refuted`, `C46_sides`, `C47_clip_mesh`, `C47_clipped`, `C50_classify`, `C52_bounded`, `C52_section`, `C52_votes`, `C53_boundary_points`, `C53_empty_section_refuted`, `C53_trimmed_box`, `C53_trimmed_point`, `C55_active`, `C55_area`, `C55_attach`, `C55_cover`, `C55_many_cells_refuted`, `C55_numbers`, `C55_on_plane_refuted`, `C55_once`, `C55_schedule`, `C57_closed_mesh`, `C57_computed_normal`, `C57_quality_bound`, `C60_closed`, `C60_general_position`, `C60_open`, `C60_parallel_refuted`, `C62_accepted_fit_is_accurate`, `C62_bad_dimensions`, `C62_solver_optimal`, `C62_solver_total_and_feasible`, `C65_choice`, `C65_empty`, `C65_ends`, `C65_guarantees`, `C65_inside`, `C66_degree_refuted`, `C67_elements`, `C67_points`, `C67_schedule`, `C67_solver`, `C68_casts`, `C70_defined`, `C70_threads`, `C70_trimmed`.
* **sig_forall_dec, classic, functional_extensionality_dep**: `C68_far`.
* **sig_forall_dec, sig_not_dec, classic, functional_extensionality_dep**: `C54_area`, `C63_galerkin_integrals`, `C63_ggq_rules_integrate_splines`, `C66_box`, `C66_cell`, `C66_divergence_theorem`, `C66_moments`, `C66_region`, `C66_volume`, `C67_region`, `C67_volume`, `C68_cells`, `C68_inside`, `C68_same_side`, `C68_small_refuted`, `C69_mass_matrix`, `C69_spline_integrals`, `C70_exact`, `C70_full`, `C70_inside`, `C70_no_votes_refuted`, `C70_region`, `C70_vote`, `C76_close`, `C76_end_refuted`, `C76_faces`, `C76_finite`, `C76_parametric`, `C76_tiles`, `C76_width_refuted`, `C77_contained`, `C77_edges`, `C77_hull_refuted`, `C77_kept`, `C77_marks`, `C77_no_exception`, `C77_null`, `C77_room`, `C77_within`, `C78_close`, `C78_corner`, `C78_inside`, `C78_monotone`, `C78_positions`, `C78_round_trip`, `C78_upper_refuted`, `C78_weights`, `C79_normal`, `C79_positions`, `C79_short`, `C79_unit_refuted`, `C79_weight`.

### 5.2 What is modelled

| source (under `queso/`) | model file | not modelled |
|---|---|---|
| `containers/grid_indexer.hpp` | `GridModel`, `GridGeoModel`, `GridRoundModel` (cell bounds in double precision) | infinities in the cell bounds |
| `containers/background_grid.hpp`, `element_base.hpp`, `element_core.hpp` | `GridStoreModel` | Python-facing iterators |
| `containers/cell_domain.hpp`, `element_view.hpp`, `embedding/trimmed_domain.{h,cpp}` (queries) | `DomainModel` | lazy creation of the cell mesh as a data race |
| `containers/clipped_triangle_mesh.hpp`, `triangle_mesh.hpp`, `triangle_mesh_view.hpp` | `MeshModel`, `ClipModel` | capacity of the vectors (reserve) |
| `containers/condition.hpp`, `condition_segment.hpp`, `embedded_model.cpp` (conditions) | `ConditionModel` | thread team itself (orders are quantified) |
| `containers/data_set.hpp`, `dictionary.hpp`, `includes/keys.hpp`, `register_keys.hpp`, `dictionary_factory.hpp`, `utilities/check_dictionary_utilities.hpp` | `DictModel`, `KeysModel`, `JsonModel`, `SettingsModel`, `SettingsKeys` | template dispatch on types is a tag |
| `python/scripts/json_io.py`, `python/bindings/dictionary_binder_helper.hpp` (SetValue), the used part of pybind11 (casters, overload passes) | `JsonIoModel` | `json.load` is the JSON grammar of `JsonSpec` (no NaN/Infinity, no repeated names, characters below 128); Python ints are unbounded |
| `embedding/aabb_primitive.*`, `aabb_tree.*` | `SearchModel`, `GeoQueryModel` | the bundled tree library is modelled with arbitrary cost decisions |
| `embedding/ray_aabb_primitive.*`, `geometry_query.*`, `brep_operator.cpp` (IsInside, IsTrimmed, clipping) | `GeoQueryModel`, `ClipModel` | random directions are an arbitrary stream |
| `embedding/brep_operator.cpp` (pGetTrimmedDomain), `trimmed_domain.h` (constructor) | `TrimSearchModel` | the inside test and the random numbers are arbitrary; reservations |
| `embedding/clipper.*`, `polygon.*` | `ClipModel`, `ClipRoundModel` (double precision) | infinities |
| `embedding/flood_fill.*` | `FloodModel` (parallel part, geometric tests as parameters), `FloodThreadsModel` (threads, single accesses), `FloodGeoModel` (the tests) | timers |
| `embedding/octree.*` | `OctreeModel` | geometric queries are oracles |
| `embedding/trimmed_domain_on_plane.*` | `ContourModel` | the intersection-state query of the operator is an oracle |
| `embedded_model.h` (Create, CreateAllFromSettings, CreateVolume, CreateCondition), `embedded_model.cpp` (model info, times, WriteModelToFile, printing functions) | `SessionModel` | message texts; the computations on meshes are parameters here |
| `python/bindings/add_containers_to_python.cpp` (TriangleMesh, its iterators, Triangle) | `PyMeshModel` | conversion of arguments, failing allocations |
| `python/PyQuESo.py` (constructor, Run, GetSettings, GetElements, GetModelInfo, GetIntegrationPoints), `bindings/define_python.hpp` (UniqueHolder), lifetimes of the bindings of EmbeddedModel | `PyQuesoModel` | Kratos related functions, GetConditions, links and permissions of the file system, references to parts of the settings |
| `embedding/element_builders.hpp`, `embedded_model.cpp` (ComputeVolume) | `VolumeModel`, `GridStoreModel`, `TrimmedQuadModel` | timers, echo output, the warning about the bounding box; the classification of the cells is a parameter (modelled in `FloodModel`) |
| `io/binary_buffer_writer.hpp`, `io/io_utilities.*` | `BufferModel`, `StlModel`, `VtkModel` | conversion of doubles to floats and text is a parameter; opening of files succeeds |
| `quadrature/*`, `quadrature/integration_points_1d/*` | `GaussModel`, `GaussTable`, `Ggq1dModel`, `GgqModel`, `GgqTable*`, `BoxModel`, `TrimmedQuadModel` | tables are exact rationals of the literals |
| `solvers/nnls.cpp`, `nnls_impl.h` | `NnlsModel` | rounding |
| `python/scripts/b_spline_volume.py` | `BSplineModel` | numpy/scipy functions by their documented behaviour |
| `utilities/*` | `MappingModel`, `MapRoundModel`, `AreaRoundModel` (double precision), `MeshGeoModel`, `MeshModel`, `PolyModel`, `TriIpModel` | – |

Not modelled at all: the Python bindings and scripts that are not listed above, `kratos_interface`, logger, timer, exception formatting, concepts,
`vector3.hpp` (its operations are real arithmetic on triples in every model).

### 5.3 Deviations that matter for reading the theorems

* `double` is `R` everywhere except in the file formats and in the cell boxes of C76, the clipper of C77 and the maps of C78 and C79 (binary64 numbers of the library Flocq, every operation rounded): no
  other theorem says anything about rounding, and none about NaN or infinities.
* Undefined behaviour (index out of range, empty `back()`, division by zero where relevant) and exceptions are separate outcomes;
  "the function returns" in a theorem therefore excludes them.
* Loops whose termination is not structural carry fuel; a theorem shows that the fuel given is never used up, or the outcome
  "out of fuel" is excluded explicitly in the statement.
* Parallel loops: every order of the critical sections is covered. For the loop of the flood fill every interleaving of the single writes is covered and data races are excluded (C75); for the other loops, and inside the geometric queries, the absence of data races is not proved.

### 5.4 How to read `seeded/LOG.jsonl`

Each line is one edit of a definition in a scratch copy. `first_failing_proofs` names the proofs at which the rebuild stopped;
`theorems_failed` lists the property theorems that could then not be rebuilt, which includes theorems in files that depend on
a failing proof and were therefore not tried. `survived` marks edits after which everything still built; where that is not a gap
in a theorem the field `note` says why (for example an edit of a branch that is never taken in exact arithmetic). Edits that do
not type-check or whose rebuild was stopped at a time limit are marked as such in `note` and count neither way.
