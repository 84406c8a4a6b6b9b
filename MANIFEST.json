{
 "claims": [
  {
   "property": "C01",
   "status": "proved",
   "theorems": [
    "C01_default_pixels_inverse",
    "C01_default_pixels_box",
    "C01_contiguous_pixels_inverse",
    "C01_nested_strides_inverse",
    "C01_colmajor_functions_inverse",
    "C01_row_major_inverse_refuted",
    "C01_injective_strides_inverse_refuted",
    "C01_default_unstable_sort_refuted"
   ],
   "note": "Default, contiguous-strided and free-function forms. Beyond the statement: nested padded strides round-trip too; the _refuted theorems record layouts outside the statement (see C47)."
  },
  {
   "property": "C02",
   "status": "proved",
   "theorems": [
    "C02_default_pixels_enumeration",
    "C02_contiguous_pixels_enumeration",
    "C02_noncontiguous_refused"
   ],
   "note": "Default and contiguous grids; non-contiguous grids refuse iteration."
  },
  {
   "property": "C03",
   "status": "proved",
   "theorems": [
    "C03_contiguous_iff_fills",
    "C03_contiguous_sound",
    "C03_col_major_recognised",
    "C03_row_major_3d",
    "C03_complete_refuted",
    "C03_verdict_depends_on_sort_refuted",
    "C03_sound_large_refuted"
   ],
   "note": "Sound for positive extents, exact for extents >= 2, column-major always recognised. The _refuted theorems record the cases left out of the statement: extents of one and 2^31 pixels or more."
  },
  {
   "property": "C04",
   "status": "proved",
   "theorems": [
    "C04_buffer_size_covers_nested",
    "C04_buffer_size_contiguous",
    "C04_buffer_size_refuted"
   ],
   "note": "Nested strides covered, contiguous tight; C04_buffer_size_refuted shows the restriction to nested strides is needed."
  },
  {
   "property": "C05",
   "status": "proved",
   "theorems": [
    "C05_modulo_periodic",
    "C05_modulo_idempotent_additive"
   ],
   "note": "Range, congruence, periodicity, idempotence, compatibility with addition."
  },
  {
   "property": "C06",
   "status": "proved",
   "theorems": [
    "C06_count_exact_iff",
    "C06_count_refuted"
   ],
   "note": "Exact iff the product fits 32 bits; wrong beyond (witness 65536 x 65536 counts 0)."
  },
  {
   "property": "C07",
   "status": "proved",
   "theorems": [
    "C07_strided_copy_exact",
    "C07_strided_copy_empty",
    "C07_strided_copy_rank_mismatch",
    "C07_zero_dimensional_refuted",
    "C07_large_refuted"
   ],
   "note": "Exact copy and frame for every sort outcome; empty arrays and rank mismatch covered. _refuted theorems: zero-dimensional arrays are undefined behaviour, 2^31 elements or more wrap."
  },
  {
   "property": "C08",
   "status": "proved",
   "theorems": [
    "C08_layout_round_trip"
   ],
   "note": "From C07 in both directions."
  },
  {
   "property": "C09",
   "status": "proved",
   "theorems": [
    "C09_sub_pt_view_embeds",
    "C09_sub_pt_view_bijective",
    "C09_global_collection_layouts",
    "C09_padded_collection_layouts",
    "C09_local_collection_layouts",
    "C09_byte_strides",
    "C09_offset_formula"
   ],
   "note": "Sane layouts embed; dense ones are bijective; reachable collection layouts (global, padded nested, local) shown sane; byte strides and explicit offset formula included."
  },
  {
   "property": "C10",
   "status": "proved",
   "theorems": [
    "C10_pixel_view_embeds",
    "C10_pixel_view_same_cells",
    "C10_pixel_view_formula",
    "C10_pixel_view_single_sub_pt",
    "C10_pixel_view_row_single"
   ],
   "note": "The remaining cases are refuted in C48."
  },
  {
   "property": "C11",
   "status": "proved",
   "theorems": [
    "C11_reshape",
    "C11_reshape_sub_division"
   ],
   "note": "Layout part. Maps after a reshape that changes the sub-division are the subject of a separate property."
  },
  {
   "property": "C12",
   "status": "proved",
   "theorems": [
    "C12_same_layout_sound",
    "C12_same_layout_complete"
   ],
   "note": "The case of different component counts is refuted in C49."
  },
  {
   "property": "C13",
   "status": "proved",
   "theorems": [
    "C13_assign_copies_logical_values",
    "C13_assign_empty_rank",
    "C13_assign_mismatch_rejected",
    "C13_assign_local"
   ],
   "note": "Global destinations for every sort outcome, any storage orders and paddings, frame included; local destinations with equal layout. Other local destinations: C50."
  },
  {
   "property": "C14",
   "status": "proved",
   "theorems": [
    "C14_add_pointwise",
    "C14_sub_pointwise",
    "C14_neg_pointwise"
   ],
   "note": "Different storage orders and padded collections are refuted in C51."
  },
  {
   "property": "C15",
   "status": "proved",
   "theorems": [
    "C15_names_unique",
    "C15_listed_iff_retrievable",
    "C15_fresh_registration",
    "C15_fresh_registration_outcome",
    "C15_existing_name",
    "C15_removal",
    "C15_name_keeps_designating",
    "C15_other_fields_untouched"
   ],
   "note": "Names, attributes and isolation over all histories of the modelled operations. Callbacks and state-field registration are not part of this model."
  },
  {
   "property": "C16",
   "status": "proved",
   "theorems": [
    "C16_write_once",
    "C16_other_number_rejected",
    "C16_set_takes_effect",
    "C16_fields_report_number",
    "C16_pixel_is_one"
   ],
   "note": "For every history. That numbers are positive is only guaranteed by set_nb_sub_pts: C58."
  },
  {
   "property": "C17",
   "status": "proved",
   "theorems": [
    "C17_storage",
    "C17_ready",
    "C17_sound_pixels_local",
    "C17_sound_pixels_global",
    "C17_order_of_registration",
    "C17_uninitialised_hidden"
   ],
   "note": "Excluded histories are the refuted C57 (pad before initialisation) and C59 (push after initialisation)."
  },
  {
   "property": "C18",
   "status": "proved",
   "theorems": [
    "C18_second_rejected",
    "C18_pixels_fixed",
    "C18_rejected",
    "C18_local_accepted_iff"
   ],
   "note": "The stronger claim that a rejected initialisation has no effect is refuted in C56."
  },
  {
   "property": "C19",
   "status": "proved",
   "theorems": [
    "C19_fresh_name",
    "C19_names_never_repeat"
   ],
   "note": "The search over decimal suffixes succeeds within one more try than there are fields; names of successive calls differ. Counter overflow is not modelled."
  },
  {
   "property": "C20",
   "status": "proved",
   "theorems": [
    "C20_push_back_fill",
    "C20_push_back_single_fill",
    "C20_push_rejected",
    "C20_collection_fill"
   ],
   "note": "Whole collections: any interleaving with activity on other fields; plus per-field theorems for push_back and push_back_single, including rejected pushes."
  },
  {
   "property": "C21",
   "status": "proved",
   "theorems": [
    "C21_indices",
    "C21_each_once",
    "C21_size",
    "C21_one_index_per_pixel",
    "C21_global_consecutive"
   ],
   "note": "Size before initialisation and non-positive counts: C58."
  },
  {
   "property": "C22",
   "status": "proved",
   "theorems": [
    "C22_registration",
    "C22_existing",
    "C22_replay",
    "C22_slots",
    "C22_no_aliasing",
    "C22_no_aliasing_across",
    "C22_cycle",
    "C22_full_turn",
    "C22_old_untouched",
    "C22_write_current"
   ],
   "note": "For nb_memory + 1 a power of two; all other depths are the refuted C60. References to sub-fields are modelled by their names."
  },
  {
   "property": "C23",
   "status": "proved",
   "theorems": [
    "C23_map_agrees",
    "C23_sub_pt_values",
    "C23_pixel_values",
    "C23_rows",
    "C23_wrapper",
    "C23_size",
    "C23_early_map"
   ],
   "note": "Dynamic maps, per pixel and per sub-point, for every memory depth. Static maps select the sub-field map in the same way and are not modelled separately."
  },
  {
   "property": "C24",
   "status": "proved",
   "theorems": [
    "C24_map_partitions",
    "C24_eigen_vec",
    "C24_sub_pt_entry",
    "C24_pixel_entry",
    "C24_row_count",
    "C24_default_rows",
    "C24_row_major_rejected",
    "C24_early_map",
    "C24_map_update",
    "C24_map_update_mismatch"
   ],
   "note": "Padded collections: C52. Row counts zero and negative: C53. Maps across field changes: C54. The static map type and const-ness are not modelled separately."
  },
  {
   "property": "C25",
   "status": "proved",
   "theorems": [
    "C25_map_sum",
    "C25_map_mean"
   ],
   "note": "For arbitrary scalar addition, so no rounding assumptions: the sum is the left fold over entries in order."
  },
  {
   "property": "C26",
   "status": "proved",
   "theorems": [
    "C26_lowest_terms",
    "C26_equal_iff_same_rational",
    "C26_construction",
    "C26_operations",
    "C26_no_overflow",
    "C26_zero_denominator_rejected",
    "C26_default_constructed_refuted",
    "C26_overflow_refuted"
   ],
   "note": "_refuted theorems: default-constructed exponent is 0/0; products of large exponents overflow int (undefined)."
  },
  {
   "property": "C27",
   "status": "proved",
   "theorems": [
    "C27_gcd",
    "C27_terminates",
    "C27_smallest_int_refuted"
   ],
   "note": "Correct and terminating, with recursion depth bounded by the bit lengths; INT_MIN is undefined behaviour."
  },
  {
   "property": "C28",
   "status": "proved",
   "theorems": [
    "C28_reachable_valid",
    "C28_commutative",
    "C28_associative",
    "C28_neutral",
    "C28_division_inverts",
    "C28_exponents",
    "C28_defined",
    "C28_mixed_tags_rejected",
    "C28_library_units"
   ],
   "note": "Group laws wherever the operations are defined, defined for exponents up to 32767, mixed tags rejected."
  },
  {
   "property": "C29",
   "status": "proved",
   "theorems": [
    "C29_add_only_equal"
   ],
   "note": ""
  },
  {
   "property": "C30",
   "status": "proved",
   "theorems": [
    "C30_unit_order",
    "C30_unit_equality",
    "C30_domain_order",
    "C30_domain_equality",
    "C30_exponent_order_rational",
    "C30_unit_order_unrestricted",
    "C30_overflow_refuted"
   ],
   "note": "Strict total order for exponents up to 32767; never contradictory beyond; C30_overflow_refuted shows comparison of representable exponents can overflow."
  },
  {
   "property": "C31",
   "status": "proved",
   "theorems": [
    "C31_add_existing",
    "C31_add_to_value",
    "C31_add_new",
    "C31_add_nested",
    "C31_typed_getters",
    "C31_python_getitem",
    "C31_python_setitem",
    "C31_assign",
    "C31_assign_missing_key",
    "C31_copies_observe",
    "C31_indexed_handle",
    "C31_failures_have_no_effect",
    "C31_safe",
    "C31_keys_unique",
    "C31_convert",
    "C31_convert_refused",
    "C31_python_setitem_refused",
    "C31_convert_keeps"
   ],
   "note": "Heap model with shared nodes; destruction of unreachable nodes is not modelled; the only undefined cases are excluded by name in C31_safe (see C63)."
  },
  {
   "property": "C32",
   "status": "proved",
   "theorems": [
    "C32_constructed",
    "C32_gradient",
    "C32_linear",
    "C32_overwrites",
    "C32_increment",
    "C32_translation",
    "C32_refused"
   ],
   "note": "Constructor, gradient formula, linearity, increment, overwriting, translation; reals modelled by an arbitrary commutative ring (no rounding)."
  },
  {
   "property": "C33",
   "status": "proved",
   "theorems": [
    "C33_adjoint",
    "C33_adjoint_any",
    "C33_uniform_weights"
   ],
   "note": "Adjointness without weights and with equal weights; unequal weights are C70."
  },
  {
   "property": "C34",
   "status": "proved",
   "theorems": [
    "C34_constant"
   ],
   "note": "For every discretisation whose shape function derivatives add up to zero."
  },
  {
   "property": "C35",
   "status": "proved",
   "theorems": [
    "C35_dof_constructor",
    "C35_components_constructor",
    "C35_c_and_fortran_order",
    "C35_fortran_accepted",
    "C35_shape_checked"
   ],
   "note": "Both constructors, any outcome of std::sort; arrays with fewer than 2^31 elements."
  },
  {
   "property": "C36",
   "status": "proved",
   "theorems": [
    "C36_operator",
    "C36_operator_rejects",
    "C36_append",
    "C36_handle",
    "C36_access",
    "C36_iterate"
   ],
   "note": ""
  },
  {
   "property": "C37",
   "status": "proved",
   "theorems": [
    "C37_kinds_global",
    "C37_kinds_local",
    "C37_component_axis",
    "C37_component_axis_local",
    "C37_no_clash"
   ],
   "note": ""
  },
  {
   "property": "C38",
   "status": "proved",
   "theorems": [
    "C38_roundtrip",
    "C38_state_roundtrip"
   ],
   "note": "The NetCDF library is trusted to transfer boxes as documented."
  },
  {
   "property": "C39",
   "status": "proved",
   "theorems": [
    "C39_roundtrip",
    "C39_same_process"
   ],
   "note": "Sorted pixels or the same process; see C83 for other orders. The NetCDF library is trusted to transfer boxes as documented."
  },
  {
   "property": "C40",
   "status": "proved",
   "theorems": [
    "C40_zip",
    "C40_enumerate",
    "C40_enum_zip",
    "C40_arange",
    "C40_arange_access",
    "C40_progression_unique"
   ],
   "note": ""
  },
  {
   "property": "C41",
   "status": "proved",
   "theorems": [
    "C41_access_one_to_one",
    "C41_outer_products",
    "C41_tensor_forms",
    "C41_tensmult_fourth",
    "C41_tensmult_second",
    "C41_tensmult_shapes",
    "C41_identity_transposer_tracer",
    "C41_symmetriser",
    "C41_dot",
    "C41_double_contraction",
    "C41_double_contraction_associative"
   ],
   "note": "For an arbitrary commutative ring of scalars (no rounding) and every dimension; the uninitialised matrix the outer products fill is a parameter. Symmetrisation for a ring element that is one half."
  },
  {
   "property": "C42",
   "status": "proved",
   "theorems": [
    "C42_index_formulas",
    "C42_round_trip",
    "C42_composition"
   ],
   "note": "The inverse is any two-sided inverse; the accuracy of Eigen's inversion is not modelled. One dimension: C73."
  },
  {
   "property": "C43",
   "status": "proved",
   "theorems": [
    "C43_logm",
    "C43_logm_value",
    "C43_spectral",
    "C43_spectral_unique",
    "C43_both_logarithms",
    "C43_exp_of_log"
   ],
   "note": "Eigenvalues, eigenvectors, logarithm and reciprocal are parameters; exact arithmetic. Eigen's solver is not modelled: the theorems hold for every correct decomposition. Repeated eigenvalues in logm: C75."
  },
  {
   "property": "C44",
   "status": "proved",
   "theorems": [
    "C44_gather",
    "C44_gather_nothing",
    "C44_offsets",
    "C44_offsets_partition",
    "C44_sum_matrix",
    "C44_scalars",
    "C44_logical",
    "C44_serial",
    "C44_serial_gather"
   ],
   "note": ""
  },
  {
   "property": "C45",
   "status": "proved",
   "theorems": [
    "C45_root",
    "C45_perfect_square",
    "C45_dimension",
    "C45_dimension_square"
   ],
   "note": ""
  },
  {
   "property": "C46",
   "status": "partial",
   "theorems": [
    "C46_heat_refuted",
    "C46_domain_warning",
    "C46_tagged_mechanics_refuted",
    "C46_mechanics",
    "C46_heat_refuted"
   ],
   "note": "Refuted for tags other than 0: the comparison value is always built with tag 0, so the library's own mechanics domain is reported inconsistent for every non-zero tag. The predefined heat domain is reported inconsistent for every tag. Exact characterisation proved."
  },
  {
   "property": "C47",
   "status": "partial",
   "theorems": [
    "C47_nested_strides_inverse_partial",
    "C47_degenerate_row_major_refuted"
   ],
   "note": "Refuted: row-major (3,1,2) grids, non-nested injective strides and unstable sorts break the law (C01_row_major_inverse_refuted, C01_injective_strides_inverse_refuted, C01_default_unstable_sort_refuted, C03_complete_refuted, C03_verdict_depends_on_sort_refuted). Proved part: nested strides, and the exact set of three-dimensional row-major grids that are recognised (C03_row_major_3d)."
  },
  {
   "property": "C48",
   "status": "partial",
   "theorems": [
    "C48_pixel_view_row_major_refuted",
    "C48_scalar_rank_refuted"
   ],
   "note": "Refuted: in row-major storage with several sub-points and a leading component axis longer than one, every field has two multi-indices sharing a cell (strides computed from the un-scaled component shape); for an empty component shape the rank of the strides is one too small. The valid cases are C10."
  },
  {
   "property": "C49",
   "status": "partial",
   "theorems": [
    "C49_same_layout_component_count_refuted"
   ],
   "note": "Refuted: the comparison looks at component strides only, so [n] and [m] components are always reported as the same layout. The valid case is C12."
  },
  {
   "property": "C50",
   "status": "partial",
   "theorems": [
    "C50_local_destination_refuted",
    "C50_local_mismatch_refuted"
   ],
   "note": "Refuted: a local destination copies the buffer of the source as is (storage orders and shapes are not compared) and a size mismatch is undefined behaviour. Valid cases are C13."
  },
  {
   "property": "C51",
   "status": "partial",
   "theorems": [
    "C51_storage_orders_refuted",
    "C51_padded_refuted"
   ],
   "note": "Refuted with witnesses for different storage orders and for padded pixel strides. Valid case is C14."
  },
  {
   "property": "C52",
   "status": "partial",
   "theorems": [
    "C52_padded_map_refuted"
   ],
   "note": "Refuted: on a 2x2 grid with strides (1,3) the map visits a padding block instead of the last pixel. The unpadded case is C24."
  },
  {
   "property": "C53",
   "status": "partial",
   "theorems": [
    "C53_negative_rows_refuted",
    "C53_zero_rows_refuted"
   ],
   "note": "Refuted: rows -2 of 4 scalars is accepted (cols -2) and a zero row count divides by zero. Non-zero non-divisors are rejected (C24_row_count)."
  },
  {
   "property": "C54",
   "status": "partial",
   "theorems": [
    "C54_reshape_keeps_field_partial",
    "C54_reshape_sub_division_refuted",
    "C54_pad_keeps_values_partial",
    "C54_map_after_pad_refuted"
   ],
   "note": "Refuted for every field: a reshape that changes the sub-division leaves the entry count stale (out-of-bounds reads when it shrinks), and a pad change that outgrows the capacity leaves earlier maps dangling. Proved part: reshape within the sub-division and pad changes keep values and storage consistent."
  },
  {
   "property": "C55",
   "status": "partial",
   "theorems": [
    "C55_contiguous_partial",
    "C55_block_refuted"
   ],
   "note": "Refuted: a block of a larger array is read as if it were contiguous. Proved for contiguous expressions."
  },
  {
   "property": "C56",
   "status": "partial",
   "theorems": [
    "C56_rejected_initialisation_has_no_effect_refuted"
   ],
   "note": "Refuted: a field without sub-point number makes initialise fail after earlier fields were sized; completing the collection then fails although it would have succeeded. What is guaranteed is C18_rejected."
  },
  {
   "property": "C57",
   "status": "partial",
   "theorems": [
    "C57_pad_before_initialisation_refuted",
    "C57_pad_after_initialisation_partial"
   ],
   "note": "Refuted: set_pad_size on an uninitialised field sets its entry count to -nb_sub_pts and no grid is accepted afterwards. Proved for initialised collections."
  },
  {
   "property": "C58",
   "status": "partial",
   "theorems": [
    "C58_size_before_initialisation_refuted",
    "C58_zero_sub_points_refuted",
    "C58_numbers_positive_partial"
   ],
   "note": "Refuted: the constructor accepts zero sub-points (iteration divides by zero) and the size before initialisation is minus the stride. Proved: numbers stay positive if the constructor got positive ones."
  },
  {
   "property": "C59",
   "status": "partial",
   "theorems": [
    "C59_push_after_initialisation_refuted"
   ],
   "note": "Refuted: push_back is accepted after initialisation, breaks the storage size and leaves the data pointer stale."
  },
  {
   "property": "C60",
   "status": "partial",
   "theorems": [
    "C60_memory_refuted",
    "C60_replay_refuted"
   ],
   "note": "Refuted: for every nb_memory + 1 that is not a power of two, two of the states share one sub-field in every reachable state; with nb_memory = 2 the value written before a cycle is lost. Positive part: C22."
  },
  {
   "property": "C61",
   "status": "partial",
   "theorems": [
    "C61_failed_registration_refuted",
    "C61_existing_kept_partial"
   ],
   "note": "Refuted: sub-fields registered before the failing one stay in the collection. Proved: existing fields and state fields are kept."
  },
  {
   "property": "C62",
   "status": "partial",
   "theorems": [
    "C62_assign_value_partial",
    "C62_assign_dictionary_refuted",
    "C62_setitem_dictionary_refuted"
   ],
   "note": "Refuted: a dictionary assigned to an entry rebinds a temporary handle and is silently lost, also through Python's d[key] = {...}. Proved for integers, reals and matrices."
  },
  {
   "property": "C63",
   "status": "partial",
   "theorems": [
    "C63_matrix_self_assignment_refuted",
    "C63_runtime_value_refuted",
    "C63_runtime_value_partial",
    "C63_assign_of_partial"
   ],
   "note": "Refuted: assigning a matrix to the entry it was read from reads freed memory, and RuntimeValue assignment of dictionaries or matrices assigns to an unconstructed object. Proved for all other assignments."
  },
  {
   "property": "C64",
   "status": "partial",
   "theorems": [
    "C64_offset_refuted",
    "C64_offset_partial"
   ],
   "note": "Refuted for offsets from one up to the length: the counter ends at the length, so the last elements are dropped (C64_offset_refuted). Proved for other offsets (C64_offset_partial)."
  },
  {
   "property": "C65",
   "status": "partial",
   "theorems": [
    "C65_arange_refuted",
    "C65_zero_step"
   ],
   "note": "Refuted: with the bound on the other side of the start the loop visits the start, stops at once or never stops, depending on the distance (C65_arange_refuted). The case with the bound on the right side is C40."
  },
  {
   "property": "C66",
   "status": "partial",
   "theorems": [
    "C66_overflow_refuted",
    "C66_nonpositive_refuted"
   ],
   "note": "Refuted: above 92680 the first square overflows (C66_overflow_refuted); zero and small negative arguments recurse for ever (C66_nonpositive_refuted). The remaining range is C45."
  },
  {
   "property": "C67",
   "status": "partial",
   "theorems": [
    "C67_one_past_refuted"
   ],
   "note": "Refuted: the index equal to the number of frames is accepted (C67_one_past_refuted); the access through the handle is rejected unless a frame is appended first."
  },
  {
   "property": "C68",
   "status": "partial",
   "theorems": [
    "C68_no_frame_refuted",
    "C68_no_frame_partial"
   ],
   "note": "Refuted for files without frames (C68_no_frame_refuted); proved for files with at least one frame (C68_no_frame_partial)."
  },
  {
   "property": "C69",
   "status": "partial",
   "theorems": [
    "C69_block_refuted",
    "C69_gap_refuted"
   ],
   "note": "Refuted: blocks with a gap between columns are sent as contiguous memory (C69_gap_refuted). Contiguous matrices are C44."
  },
  {
   "property": "C70",
   "status": "partial",
   "theorems": [
    "C70_weights_per_point_refuted",
    "C70_weight_of_pixel_partial",
    "C70_short_weights_refuted"
   ],
   "note": "Refuted: the weight is selected by the pixel index (C70_weights_per_point_refuted), too few weights are read out of bounds (C70_short_weights_refuted). What is computed instead is C70_weight_of_pixel_partial."
  },
  {
   "property": "C71",
   "status": "partial",
   "theorems": [
    "C71_offset_checked_refuted",
    "C71_offset_aliases_refuted",
    "C71_node_aliases_refuted",
    "C71_counts_checked_partial"
   ],
   "note": "Refuted: other offsets and node indices are accepted and alias (C71_*_refuted). The checks that exist are C71_counts_checked_partial."
  },
  {
   "property": "C72",
   "status": "partial",
   "theorems": [
    "C72_subdomain_refuted"
   ],
   "note": "Refuted for every sub-domain with a positive location (C72_subdomain_refuted): the wrapped coordinate lacks the location and is looked up at a negative index."
  },
  {
   "property": "C73",
   "status": "partial",
   "theorems": [
    "C73_one_dimension_refuted",
    "C73_one_dimension_partial"
   ],
   "note": "Refuted: in one dimension a second-rank tensor is multiplied with the transformation once. The partial theorem says what is computed."
  },
  {
   "property": "C74",
   "status": "partial",
   "theorems": [
    "C74_asymmetriser_refuted",
    "C74_asymmetriser_partial"
   ],
   "note": "Refuted: Iasymm is the symmetriser minus a third of the trace tensor. The partial theorem gives its action."
  },
  {
   "property": "C75",
   "status": "partial",
   "theorems": [
    "C75_repeated_eigenvalues_refuted",
    "C75_repeated_eigenvalues_partial"
   ],
   "note": "Refuted: division by zero for any pair of equal eigenvalues, for example the identity. C43 covers distinct eigenvalues and logm_alt."
  },
  {
   "property": "C76",
   "status": "partial",
   "theorems": [
    "C76_access_refuted",
    "C76_access_partial"
   ],
   "note": "Refuted: for a transposed expression the components come in reverse index order, for a block of a larger matrix the position lies outside. The partial theorem gives the component read through a transposed expression."
  },
  {
   "property": "C77",
   "status": "partial",
   "theorems": [
    "C77_component_order_refuted"
   ],
   "note": "Refuted: the check of the component strides skips the first pair of axes; an array with transposed components is accepted and read with components exchanged. Arrays with ordered component axes are C35."
  },
  {
   "property": "C78",
   "status": "partial",
   "theorems": [
    "C78_slices_refuted",
    "C78_strides_refuted"
   ],
   "note": "Refuted: every one-dimensional slice with a step other than one is accepted and read at other places, likewise broadcast axes and gaps that are no multiple of the next faster stride. Arrays without such strides are C35."
  },
  {
   "property": "C79",
   "status": "partial",
   "theorems": [
    "C79_custom_strides_refuted",
    "C79_padded_pixels_refuted",
    "C79_custom_strides_partial"
   ],
   "note": "Refuted: get_strides of such a field ignores the element size, so the numpy view has element strides as byte strides; set_zero clears the first size() scalars, also of arrays with padded pixels whose order is known. Proved for fields without strides given by the caller and without padding."
  },
  {
   "property": "C80",
   "status": "proved",
   "theorems": [
    "C80_assign_then_read",
    "C80_wrong_shape",
    "C80_setter",
    "C80_numpy_copy"
   ],
   "note": "For views that reach each scalar once: all of s; p in column-major storage or with one sub-point per pixel (the other case is refuted in C48). Negative strides are divided as signed numbers in the model."
  },
  {
   "property": "C81",
   "status": "partial",
   "theorems": [
    "C81_c_order_accepted_partial",
    "C81_extent_one_refuted"
   ],
   "note": "Refuted for a first grid extent of one; proved for extents of at least two."
  },
  {
   "property": "C82",
   "status": "partial",
   "theorems": [
    "C82_name_refuted",
    "C82_scalar_refuted",
    "C82_no_pixel_refuted",
    "C82_global_partial",
    "C82_local_partial"
   ],
   "note": "Refuted: names that begin with '_' or contain '__', scalar fields on several sub-points, local collections without pixels. The partial theorems say exactly which fields are accepted."
  },
  {
   "property": "C83",
   "status": "partial",
   "theorems": [
    "C83_order_refuted",
    "C83_decomposition_refuted"
   ],
   "note": "Refuted by two witnesses; C39 holds for sorted pixels."
  },
  {
   "property": "C84",
   "status": "partial",
   "theorems": [
    "C84_fewer_pixels_refuted",
    "C84_more_pixels_refuted"
   ],
   "note": "Refuted by two witnesses: fewer pixels (write beyond the buffer) and more pixels (values of other pixels)."
  },
  {
   "property": "C85",
   "status": "partial",
   "theorems": [
    "C85_shape_refuted",
    "C85_domain_refuted",
    "C85_rank_refuted",
    "C85_same_partial"
   ],
   "note": "Refuted: component shape, domain and number of component axes are not compared. Partial: with the same variable reading is as in C38."
  },
  {
   "property": "C86",
   "status": "proved",
   "theorems": [
    "C86_accepted_iff",
    "C86_partition",
    "C86_sub_pt_entry",
    "C86_pixel_entry",
    "C86_update",
    "C86_tensor_shape"
   ],
   "note": "Sizes below 2^64 entries; fields whose pixels fill the buffer (padded pixel strides: C52)."
  },
  {
   "property": "C87",
   "status": "proved",
   "theorems": [
    "C87_refused",
    "C87_usable_afterwards"
   ],
   "note": "Histories that leave the number of pixels unknown; C88 has the iteration that is not refused."
  },
  {
   "property": "C88",
   "status": "partial",
   "theorems": [
    "C88_uninitialised_partial",
    "C88_not_refused_refuted"
   ],
   "note": "Refuted: begin() of a map that is not const does not check; the partial theorem says exactly what happens (null pointer dereferenced, or nothing visited)."
  },
  {
   "property": "C89",
   "status": "partial",
   "theorems": [
    "C89_self_partial",
    "C89_assign_partial",
    "C89_self_combination_refuted"
   ],
   "note": "Refuted: the argument is a reference into the field; the partial theorems give the exact result for every operation, and that assignment is right."
  },
  {
   "property": "C90",
   "status": "partial",
   "theorems": [
    "C90_mean_partial",
    "C90_empty_refuted"
   ],
   "note": "Refuted for empty maps (zero times the reciprocal of zero); the partial theorem gives the result for all sizes."
  },
  {
   "property": "C91",
   "status": "proved",
   "theorems": [
    "C91_static_sub_pt",
    "C91_static_pixel",
    "C91_dynamic_sub_pt",
    "C91_dynamic_pixel",
    "C91_fast_needs_pixels"
   ],
   "note": ""
  },
  {
   "property": "C92",
   "status": "partial",
   "theorems": [
    "C92_pixel_map_refuted",
    "C92_single_point_partial"
   ],
   "note": "Refuted with two sub-points per pixel; the partial theorem covers one sub-point per pixel."
  },
  {
   "property": "C93",
   "status": "proved",
   "theorems": [
    "C93_static",
    "C93_dynamic",
    "C93_optional"
   ],
   "note": ""
  },
  {
   "property": "C94",
   "status": "partial",
   "theorems": [
    "C94_leftover_refuted",
    "C94_optional_refuted",
    "C94_state_refuted"
   ],
   "note": "Refuted: the field is registered before the map is made; the name is lost. Holds when the constructor does not throw (C93)."
  },
  {
   "property": "C95",
   "status": "proved",
   "theorems": [
    "C95_new_name",
    "C95_overwrite",
    "C95_refused"
   ],
   "note": "Local collections without padding; sizes below 2^31 scalars."
  },
  {
   "property": "C96",
   "status": "partial",
   "theorems": [
    "C96_global_refuted",
    "C96_local_partial"
   ],
   "note": "Refuted: clone registers a field with a single component axis, so that the assignment fails in global collections after the registration; the partial theorem says what local collections do (scalars copied, shape lost)."
  },
  {
   "property": "C97",
   "status": "proved",
   "theorems": [
    "C97_detached"
   ],
   "note": ""
  },
  {
   "property": "C98",
   "status": "partial",
   "theorems": [
    "C98_never_allocated_refuted"
   ],
   "note": "Refuted: the collection allocates the fields it lists; the detached one keeps a null pointer. After initialisation: C97."
  },
  {
   "property": "C99",
   "status": "proved",
   "theorems": [
    "C99_first_position",
    "C99_inverse",
    "C99_empty_copy"
   ],
   "note": ""
  },
  {
   "property": "C100",
   "status": "partial",
   "theorems": [
    "C100_default_partial",
    "C100_order_refuted",
    "C100_strides_refuted"
   ],
   "note": "Refuted: storage order and pixel strides are not passed on; the partial theorem covers column-major collections initialised with column-major or automatic pixel order."
  },
  {
   "property": "C101",
   "status": "partial",
   "theorems": [
    "C101_again_refuted"
   ],
   "note": "Refuted: the second occurrence is appended to the list of pixels and not to the map."
  },
  {
   "property": "C102",
   "status": "proved",
   "theorems": [
    "C102_accepted_iff",
    "C102_agrees",
    "C102_iterate",
    "C102_iterates"
   ],
   "note": "Sub-fields not touched behind the back of the state field, as in C23."
  },
  {
   "property": "C103",
   "status": "proved",
   "theorems": [
    "C103_fixed_size",
    "C103_constructor",
    "C103_constructor_refuses",
    "C103_views",
    "C103_set_zero"
   ],
   "note": "Constructor, pad size, resize, views and set_zero of WrappedField, for all layouts with a known storage order."
  },
  {
   "property": "C104",
   "status": "proved",
   "theorems": [
    "C104_construction",
    "C104_reading",
    "C104_comparison",
    "C104_push_back",
    "C104_arithmetic",
    "C104_ipow"
   ],
   "note": "For all capacities, lists and contents of the unused storage; entries without overflow."
  },
  {
   "property": "C105",
   "status": "partial",
   "theorems": [
    "C105_conversion_refuted",
    "C105_dimension_refuted",
    "C105_modulo_refuted",
    "C105_ipow_refuted",
    "C105_conversion_partial",
    "C105_dimension_partial"
   ],
   "note": "Refuted: assigning a shorter array leaves old entries that reappear on conversion; DynCcoord(5) (also from Python) has dimension 5 with three entries; % of different dimensions uses the shorter; back() of an empty coordinate leaves the storage; ipow with a negative exponent is 1. Proved: conversion to the own dimension respects equality; dimensions that fit give a valid coordinate."
  },
  {
   "property": "C106",
   "status": "proved",
   "theorems": [
    "C106_new_file",
    "C106_appended",
    "C106_stamps"
   ],
   "note": "The NetCDF library is modelled by the rules of its classic file model (AttModel.v). Renaming to a name in use is C108, more than thirty attributes C113."
  },
  {
   "property": "C107",
   "status": "proved",
   "theorems": [
    "C107_new_file",
    "C107_appended",
    "C107_names",
    "C107_accepted"
   ],
   "note": "The NetCDF library is modelled by the rules of its classic file model (AttModel.v). One value stands for the box of a field; boxes are in C37-C39."
  },
  {
   "property": "C108",
   "status": "partial",
   "theorems": [
    "C108_tidy_partial",
    "C108_rename_refuted"
   ],
   "note": "Refuted: renaming to a name in use (or to an illegal one) renames the entry in memory before the library refuses. Proved for changes that keep the name or take a new legal one."
  },
  {
   "property": "C109",
   "status": "partial",
   "theorems": [
    "C109_only_length",
    "C109_mismatch_refuted"
   ],
   "note": "Refuted: the unit stored is compared with itself; the theorem says exactly what happens: accepted unless the unit in the file is longer, then a buffer is overrun."
  },
  {
   "property": "C110",
   "status": "partial",
   "theorems": [
    "C110_new_partial",
    "C110_append_partial",
    "C110_reader",
    "C110_illegal_name_refuted",
    "C110_stamp_refuted",
    "C110_foreign_refuted"
   ],
   "note": "Refuted: an attribute with an illegal name is accepted and found out when closing; the user can shorten or rename last_modified_date; files of other programs do not have it. Proved for legal names with these two attributes in place, and for reading."
  },
  {
   "property": "C111",
   "status": "proved",
   "theorems": [
    "C111_write_refuses",
    "C111_missing",
    "C111_overwrite_empties",
    "C111_until_close",
    "C111_reader_changes_nothing",
    "C111_append_keeps"
   ],
   "note": "The NetCDF library is modelled by the rules of its classic file model (AttModel.v). Writing an empty list of fields to a file opened for reading is accepted and does nothing."
  },
  {
   "property": "C112",
   "status": "partial",
   "theorems": [
    "C112_new_names_partial",
    "C112_retry_refuted",
    "C112_bad_name_refuted"
   ],
   "note": "Refuted: the variables of the failed registration stay in the object, so that every later registration fails. Proved: new legal names are accepted."
  },
  {
   "property": "C113",
   "status": "partial",
   "theorems": [
    "C113_readable_partial",
    "C113_thirty_refuted",
    "C113_types_refuted",
    "C113_long_name_refuted"
   ],
   "note": "Refuted: only thirty attributes are kept; types without vector make opening throw; an attribute of a variable with a name of 256 characters overruns a buffer when registering. Proved for up to thirty attributes of the types offered."
  },
  {
   "property": "C114",
   "status": "partial",
   "theorems": [
    "C114_register_first_partial",
    "C114_update_first_refuted"
   ],
   "note": "Refuted: after a change of an attribute followed by the registration every write fails. Proved: writing works if no attribute is changed before the registration."
  },
  {
   "property": "C115",
   "status": "proved",
   "theorems": [
    "C115_prints",
    "C115_alike_iff",
    "C115_domains"
   ],
   "note": "The exception (both dimensionless with non-zero tags) is part of the statement; see C116."
  },
  {
   "property": "C116",
   "status": "partial",
   "theorems": [
    "C116_tag_refuted",
    "C116_dimension_partial"
   ],
   "note": "Refuted: dimensionless units with non-zero tags all print the empty string. Proved for units with a base unit."
  },
  {
   "property": "C117",
   "status": "proved",
   "theorems": [
    "C117_types",
    "C117_mpi_types",
    "C117_roundtrip",
    "C117_local_roundtrip"
   ],
   "note": "Bytes in memory are modelled; the parallel library, which converts between file and memory types, is covered by the statement on its types (C117_mpi_types)."
  },
  {
   "property": "C118",
   "status": "partial",
   "theorems": [
    "C118_complex_refuted",
    "C118_collection_refuted",
    "C118_real_partial"
   ],
   "note": "Refuted: complex elements have no type in NetCDF, so registering such a field throws, and so does registering a whole collection with one. Proved for all other types: registration succeeds exactly if the shape is accepted."
  },
  {
   "property": "C119",
   "status": "partial",
   "theorems": [
    "C119_smaller_refuted",
    "C119_same_size_refuted",
    "C119_append_refuted",
    "C119_larger_refuted",
    "C119_same_partial"
   ],
   "note": "Refuted: types are never compared. A variable with larger elements is read beyond the end of the field (for all fields without padding); smaller or other elements are misread silently. Proved: with equal types access is that of C117."
  },
  {
   "property": "C120",
   "status": "proved",
   "theorems": [
    "C120_created",
    "C120_taken"
   ],
   "note": ""
  },
  {
   "property": "C121",
   "status": "proved",
   "theorems": [
    "C121_default",
    "C121_contiguous",
    "C121_view_dimension",
    "C121_view",
    "C121_index_dimension"
   ],
   "note": ""
  },
  {
   "property": "C122",
   "status": "partial",
   "theorems": [
    "C122_never_refuses_refuted",
    "C122_static_refuted",
    "C122_dynamic_partial"
   ],
   "note": "Refuted for statically dimensioned pixels, which never refuse and leave the grid; proved for dynamic pixels."
  },
  {
   "property": "C123",
   "status": "proved",
   "theorems": [
    "C123_volume",
    "C123_positions",
    "C123_cube"
   ],
   "note": ""
  },
  {
   "property": "C124",
   "status": "partial",
   "theorems": [
    "C124_ignored_refuted"
   ],
   "note": "Refuted: further lengths are ignored."
  },
  {
   "property": "C125",
   "status": "proved",
   "theorems": [
    "C125_waiting",
    "C125_initialise",
    "C125_ready",
    "C125_entries",
    "C125_created",
    "C125_shape",
    "C125_moved",
    "C125_movable"
   ],
   "note": "Worlds of one collection, its fields, removed fields and maps as objects with identities; callbacks are weak pointers. Iteration contents from C24."
  },
  {
   "property": "C126",
   "status": "partial",
   "theorems": [
    "C126_outlived_partial",
    "C126_dangling_refuted",
    "C126_removed_refuted"
   ],
   "note": "Refuted by C126_dangling_refuted (undefined behaviour in the initialisation) and C126_removed_refuted (a map that reports to be ready leads nowhere); C126_outlived_partial and C125_initialise: safe when fields end after their maps."
  },
  {
   "property": "C127",
   "status": "proved",
   "theorems": [
    "C127_created",
    "C127_opened",
    "C127_reopened"
   ],
   "note": "Dimensions and variables of files with several collections, created and opened again."
  },
  {
   "property": "C128",
   "status": "partial",
   "theorems": [
    "C128_own_name_refuted",
    "C128_other_collection_refuted"
   ],
   "note": "Refuted: the position field of a local collection is hidden from the list of names, so a field of the same name passes the check and the library refuses it; the object cannot define anything any more."
  },
  {
   "property": "C129",
   "status": "partial",
   "theorems": [
    "C129_not_saved_refuted"
   ],
   "note": "Refuted: the names of fields of state fields are shared by all collections; such a field is silently left out."
  },
  {
   "property": "C130",
   "status": "partial",
   "theorems": [
    "C130_refused_refuted"
   ],
   "note": "Refuted: the dimensions added before the refusal stay and clash with those of a later field of the same name."
  },
  {
   "property": "C131",
   "status": "proved",
   "theorems": [
    "C131_last_write",
    "C131_unknown"
   ],
   "note": "For all plans, setups and programs of the Session model; local collections in increasing order of pixels (C83 is the other case) and positioned before use (C132, C133 are the other cases)."
  },
  {
   "property": "C132",
   "status": "partial",
   "theorems": [
    "C132_read_first_refuted",
    "C132_failed_read_refuted"
   ],
   "note": "Refuted for local fields: the read loads the positions of the pixels from a file in which they were never written; afterwards data are lost silently or the write reads beyond the field. Reads of global fields and of local fields already written are harmless (C131_last_write, in which such reads are allowed anywhere)."
  },
  {
   "property": "C133",
   "status": "partial",
   "theorems": [
    "C133_written_later_refuted"
   ],
   "note": "Refuted for local fields whose collection was not written by the creating run. If some field of the collection was written then, all of them can be written later (C131_last_write)."
  },
  {
   "property": "C134",
   "status": "proved",
   "theorems": [
    "C134_new_file",
    "C134_appended",
    "C134_accepted",
    "C134_type",
    "C134_dictionary"
   ],
   "note": "C134_new_file and C134_appended: whole programs, every later read; C134_accepted; C134_type; C134_dictionary. Built on C106; the rules of pybind11 for overloads and conversions are part of the model."
  },
  {
   "property": "C135",
   "status": "partial",
   "theorems": [
    "C135_iff_partial",
    "C135_small_partial",
    "C135_rounded_refuted"
   ],
   "note": "Refuted: C135_rounded_refuted (integers beyond 64 bits, and integers beyond 2^53 beside a float, are accepted and silently rounded). C135_iff_partial: what is read back is equal exactly for the values of C134; C135_small_partial: integers up to 2^53 are among them."
  },
  {
   "property": "C136",
   "status": "partial",
   "theorems": [
    "C136_same_type_partial",
    "C136_kind_refuted"
   ],
   "note": "Refuted: C136_kind_refuted (a list of floats cannot be updated with integers, nor [7] with [2147483648]: the overload is chosen by the new values and another type is refused). C136_same_type_partial: accepted if the new value is stored as the same type and is not longer; refused for another type."
  },
  {
   "property": "C137",
   "status": "partial",
   "theorems": [
    "C137_text_refuted",
    "C137_printed",
    "C137_refused"
   ],
   "note": "Refuted: C137_text_refuted (the value is printed to standard output and the text returned is the same for all attributes, empty unless standard output can be read)."
  },
  {
   "property": "C138",
   "status": "proved",
   "theorems": [
    "C138_created",
    "C138_opened",
    "C138_executions"
   ],
   "note": "Every interleaving of the processes leads to the state that SessionModel describes (C138_created, C138_opened); C138_executions says what this means for single executions. Collective calls start when all processes made them and return when all have done their part; the consistency of MPI-IO is not modelled."
  },
  {
   "property": "C139",
   "status": "proved",
   "theorems": [
    "C139_two_programs"
   ],
   "note": "Two programs with different numbers of processes; composes C138 and C131."
  },
  {
   "property": "C140",
   "status": "partial",
   "theorems": [
    "C140_waits_refuted",
    "C140_refuses_refuted"
   ],
   "note": "Refuted: reading a local field from a frame that was appended but not written throws on the processes with pixels, while a process without pixels waits for ever (C140_waits_refuted); after reading a local field with a frame index below minus the number of frames, global fields can be neither written nor read until the file is opened again (C140_refuses_refuted). What does hold is in C138: all other failures."
  },
  {
   "property": "C141",
   "status": "partial",
   "theorems": [
    "C141_silent_refuted"
   ],
   "note": "Refuted: a local field of a collection of which nothing was read is 'written' without an exception and without any effect (C141_silent_refuted)."
  },
  {
   "property": "C142",
   "status": "proved",
   "theorems": [
    "C142_keeps",
    "C142_owners"
   ],
   "note": "C142_keeps: whatever was given up; C142_owners: programs that keep their collections and files. Reference counting of CPython and the rules of pybind11 2.11.1 are part of the model."
  },
  {
   "property": "C143",
   "status": "partial",
   "theorems": [
    "C143_borrowed_refuted",
    "C143_registered_refuted"
   ],
   "note": "Refuted: C143_borrowed_refuted (for every such object there is a continuation of the program that uses memory that is gone) and C143_registered_refuted (files and the collections registered with them). C142 is what holds."
  },
  {
   "property": "C144",
   "status": "proved",
   "theorems": [
    "C144_given",
    "C144_current",
    "C144_write",
    "C144_assign"
   ],
   "note": "C144_given, C144_current, C144_write, C144_assign. Fields with at least one component; the collection exists all the time (lifetimes: C142)."
  },
  {
   "property": "C145",
   "status": "partial",
   "theorems": [
    "C145_detached_refuted",
    "C145_silent_refuted",
    "C145_dangling_refuted"
   ],
   "note": "Refuted: C145_detached_refuted (before the first attempt to initialise the array has memory of its own, and no write ever reaches the field), its case (assigning then writes through a null pointer), C145_silent_refuted (the program reads back from such an array what it wrote, while the field has other values), and C145_dangling_refuted (after a failed attempt to initialise the array can end on memory that is gone). C144 is what holds."
  },
  {
   "property": "C146",
   "status": "proved",
   "theorems": [
    "C146_placed",
    "C146_created",
    "C146_opened",
    "C146_frames",
    "C146_last_write",
    "C146_others"
   ],
   "note": "Arrays, collections, fields and file together: the programs of Stack*, whose calls on arrays are those of PyArray* and whose transfers are those of Session*. Complex fields, which the file refuses, state fields and local collections are outside (see C131 for the last two)."
  },
  {
   "property": "C147",
   "status": "proved",
   "theorems": [
    "C147_values",
    "C147_created",
    "C147_opened",
    "C147_frames",
    "C147_last_write",
    "C147_continues",
    "C147_possible",
    "C147_quiet"
   ],
   "note": "Arrays, state fields and file together: the programs of Resume*, which extend those of Stack* by state fields. C147_values, _created, _opened, _frames, _last_write, _continues, _possible, _quiet. Complex fields, which the file refuses, and local collections are outside."
  },
  {
   "property": "C148",
   "status": "partial",
   "theorems": [
    "C148_continues_refuted"
   ],
   "note": "Refuted: C148_continues_refuted. With two old states one of the three fields cannot be reached through the state field at any time (see C60), so it is not written; after the next call to cycle it is state 2 again in the program that wrote, and something else in the one that read. C147 is what holds."
  },
  {
   "property": "C149",
   "status": "proved",
   "theorems": [
    "C149_finishes",
    "C149_attributes",
    "C149_reopened"
   ],
   "note": "HeadModel.v has the functions of AttModel.v with every library call as a collective one; with one process it is AttModel.v (proved). Processes differ in their clocks only, with the same arguments otherwise."
  },
  {
   "property": "C150",
   "status": "partial",
   "theorems": [
    "C150_same_attributes_refuted"
   ],
   "note": "Refuted: dates and times come from the clock of each process; two processes that create a file around midnight see different values, and PnetCDF gets different values in a collective call (an error in its safe mode). C149 is the positive part."
  },
  {
   "property": "C151",
   "status": "proved",
   "theorems": [
    "C151_create",
    "C151_open",
    "C151_created",
    "C151_reopened"
   ],
   "note": "For all numbers of processes and divisions. Attributes, opening and closing, and data are in C149 and the Par theorems."
  },
  {
   "property": "C152",
   "status": "proved",
   "theorems": [
    "C152_sub_pt",
    "C152_pixel",
    "C152_nothing_else",
    "C152_write",
    "C152_exist",
    "C152_exist_local",
    "C152_refused",
    "C152_assign"
   ],
   "note": "Views of fields with their own memory; fields on foreign memory with strides of their own are not covered."
  },
  {
   "property": "C153",
   "status": "partial",
   "theorems": [
    "C153_row_major_refuted"
   ],
   "note": "Refuted: row-major fields are accepted, and the columns of their views mix components and pixels."
  },
  {
   "property": "C154",
   "status": "proved",
   "theorems": [
    "C154_message",
    "C154_text",
    "C154_unique",
    "C154_thrower"
   ],
   "note": "The stack and what the loader knows about addresses are arbitrary; names without NUL. That each constructor has a frame of its own (no inlining) is assumed for the last sentence."
  },
  {
   "property": "C155",
   "status": "partial",
   "theorems": [
    "C155_thrower_refuted",
    "C155_runtime_error",
    "C155_dictionary_errors"
   ],
   "note": "Refuted: three entries are always discarded, so a RuntimeError leaves out the function that throws it, and the text of a KeyError or ValueError ends with their constructor."
  },
  {
   "property": "C156",
   "status": "proved",
   "theorems": [
    "C156_gradient",
    "C156_values",
    "C156_adjoint",
    "C156_weights"
   ],
   "note": "From the theorem on the operator (C33) and the layout of fields; scalars are a commutative ring given by its operations."
  },
  {
   "property": "C157",
   "status": "partial",
   "theorems": [
    "C157_two_collections_refuted",
    "C157_smaller_refuted"
   ],
   "note": "Refuted: only the number of components of the fields is compared. Fields of two collections with different pixel strides give a wrong derivative, and a nodal field of a smaller grid is read behind its end."
  },
  {
   "property": "C158",
   "status": "proved",
   "theorems": [
    "C158_map",
    "C158_sub_points",
    "C158_sub_points_wrap",
    "C158_grid",
    "C158_index",
    "C158_coordinate",
    "C158_collection",
    "C158_field",
    "C158_modest",
    "C158_copy",
    "C158_volume",
    "C158_range",
    "C158_range_overflow"
   ],
   "note": "The model repeats the arithmetic with signed 64-bit numbers (overflow is undefined behaviour), size_t modulo 2^64 and int loops, and is shown equal to the models of the other properties. C158_modest: the strides of the storage orders, and all non-negative ones on grids with a pixel, satisfy the hypothesis of C158_field. The number of elements of a strided copy is the 32-bit product (C06, C07)."
  },
  {
   "property": "C159",
   "status": "partial",
   "theorems": [
    "C159_refused_refuted",
    "C159_loop_refuted"
   ],
   "note": "Refuted: 65536 x 65536 points are refused because the number of points is computed in 32 bits, even if the rank holds a small part; 65536 x 65537 points pass the check but the int loop over the pixels overflows (undefined behaviour). C158_collection is the positive result: fewer than 2^31 points."
  },
  {
   "property": "C160",
   "status": "proved",
   "theorems": [
    "C160_affine",
    "C160_mean",
    "C160_balance"
   ],
   "note": "From C156 and C33/C34: a permutation of the grid for each node of an element, and adjointness with the field that is one for a component."
  },
  {
   "property": "C161",
   "status": "proved",
   "theorems": [
    "C161_created",
    "C161_opened",
    "C161_frames",
    "C161_last_write",
    "C161_others"
   ],
   "note": "Local collections are made from pixel numbers in increasing order (C83 is the other case) and positioned before use (C132, C133 are the other cases). C161_created, C161_opened and C161_frames say that the calls succeed, C161_last_write that data comes through, C161_others that nothing else changes. C161_case runs two programs."
  },
  {
   "property": "C162",
   "status": "proved",
   "theorems": [
    "C162_sum",
    "C162_sum_floats",
    "C162_cumulative",
    "C162_cumulative_wide",
    "C162_cumulative_floats",
    "C162_cumulative_complex",
    "C162_bcast",
    "C162_serial",
    "C162_serial_sum",
    "C162_serial_alike",
    "C162_arrays",
    "C162_vectors",
    "C162_factory"
   ],
   "note": "What MPI computes for floats and complex numbers is a parameter. The rules of pybind11 for choosing overloads are trusted as stated in PyCommModel.v."
  },
  {
   "property": "C163",
   "status": "partial",
   "theorems": [
    "C163_scalars_refuted",
    "C163_unsigned_refuted",
    "C163_kinds_refuted",
    "C163_order_refuted"
   ],
   "note": "Refuted: each process chooses the C++ type from its own argument. Without MPI sum(2**53 + 1) is a float with another value, numpy.float32(2.5) becomes 2, sum of a complex scalar raises; cumulative_sum of integers from 2^31 to 2^32 - 1 wraps on two processes or more; bcast of 2**40 with 0 elsewhere, or sum of 1 and 1.5, are calls of MPI with different types; matrices in C order are refused. What holds is C162."
  },
  {
   "property": "C164",
   "status": "proved",
   "theorems": [
    "C164_dictionary",
    "C164_add",
    "C164_new",
    "C164_set",
    "C164_arrays_refused"
   ],
   "note": "All values, nested dictionaries and prior states; pybind11's rules for numbers and EigenDRef are trusted as stated in PyCommModel.v and PyDictModel.v."
  },
  {
   "property": "C165",
   "status": "partial",
   "theorems": [
    "C165_vectors_refuted",
    "C165_integers_refuted",
    "C165_others_refuted"
   ],
   "note": "Refuted: vectors come back as columns; integers beyond 32 bits are refused in dictionaries and become floats with add (2^53+1 changes its value); integers of numpy are refused in dictionaries and accepted by add; numpy.float32(2.5) becomes 2 with add and is refused in dictionaries; arrays that are read-only or have negative strides are refused, and one of a single element becomes an integer with add."
  },
  {
   "property": "C166",
   "status": "proved",
   "theorems": [
    "C166_components",
    "C166_components_refused",
    "C166_coordinates",
    "C166_domain",
    "C166_domain_refused",
    "C166_cube"
   ],
   "note": "All arguments of the kinds named; pybind11's rules for numbers and sequences are trusted as stated in PyCommModel.v and PyArgModel.v."
  },
  {
   "property": "C167",
   "status": "partial",
   "theorems": [
    "C167_numbers_refuted",
    "C167_domain_refuted",
    "C167_unit_refuted"
   ],
   "note": "Refuted: numpy.float32(2.5) and an array with the element 2.5 count as two components, numpy.float32(2.5) as coordinate 2; arrays of numpy are refused as coordinates; get_domain_ccoord starts over behind the domain, gives negative coordinates for negative indices and divides by zero for empty domains; get_domain_index overflows from 2^31 points on; Unit.length() without a tag raises TypeError."
  },
  {
   "property": "C168",
   "status": "proved",
   "theorems": [
    "C168_domain",
    "C168_strides",
    "C168_pixel_order",
    "C168_dimension",
    "C168_local",
    "C168_initialise",
    "C168_two_steps",
    "C168_grid"
   ],
   "note": "The rules of pybind11 for positions, keywords, defaults and conversions are trusted as stated in PyCollModel.v."
  },
  {
   "property": "C169",
   "status": "partial",
   "theorems": [
    "C169_arrays_refuted",
    "C169_sub_points_refuted",
    "C169_dimensions_refuted",
    "C169_pixels_refuted"
   ],
   "note": "Refuted: arrays with one element count as the dimension and others are refused (C169_arrays_refuted), sub-points are needed with strides (C169_sub_points_refuted), dimensions and sizes are not compared (C169_dimensions_refuted), pixels from 2^63 on become negative (C169_pixels_refuted); pixels below 2^63 keep their index."
  },
  {
   "property": "C170",
   "status": "proved",
   "theorems": [
    "C170_typed",
    "C170_refused",
    "C170_program"
   ],
   "note": "For collections of RegistryModel.v and programs of PyArrayModel.v; the objects that pybind11 makes for the fields are in PyLifeModel.v."
  },
  {
   "property": "C171",
   "status": "proved",
   "theorems": [
    "C171_uniform",
    "C171_applies",
    "C171_mean",
    "C171_uniform_mean",
    "C171_shape",
    "C171_rows"
   ],
   "note": "Rules of pybind11 for matrices are trusted as stated at load_value in PyMapModel.v. Addition and division are parameters; C171_uniform_mean asks that dividing the sum of n copies by n gives the number back, which integers without overflow meet."
  },
  {
   "property": "C172",
   "status": "partial",
   "theorems": [
    "C172_values_refuted",
    "C172_integer_mean_refuted",
    "C172_unsigned_mean_refuted",
    "C172_rows_refuted"
   ],
   "note": "Refuted: set_uniform takes only writeable arrays of exactly the type of the field (C172_values_refuted), the mean of integers is truncated (C172_integer_mean_refuted), sums of unsigned integers wrap (C172_unsigned_mean_refuted), zero rows divide by zero (C172_rows_refuted)."
  },
  {
   "property": "C173",
   "status": "proved",
   "theorems": [
    "C173_old"
   ],
   "note": "On top of StateModel.v, where C22 has what the fields hold."
  },
  {
   "property": "C174",
   "status": "proved",
   "theorems": [
    "C174_iterate",
    "C174_reversed",
    "C174_length",
    "C174_item",
    "C174_item_refused",
    "C174_use",
    "C174_access",
    "C174_names"
   ],
   "note": "Programs of calls on one file; iterators of pybind11 and reversed as state machines; data transfer is in the NetCDF models."
  },
  {
   "property": "C175",
   "status": "partial",
   "theorems": [
    "C175_one_past_refuted",
    "C175_constructor_refuted",
    "C175_exception_refuted"
   ],
   "note": "Refuted: the index one past the end gives a frame that cannot be read, other indices out of range raise RuntimeError, and the constructor of frames takes every number."
  },
  {
   "property": "C176",
   "status": "partial",
   "theorems": [
    "C176_up_partial",
    "C176_down_refuted"
   ],
   "note": "Refuted for negative steps (C176_down_refuted: every element ends the program, positions beyond the end are let pass); proved for positive steps (C176_up_partial)."
  },
  {
   "property": "C177",
   "status": "partial",
   "theorems": [
    "C177_subscript_partial",
    "C177_after_last_refuted",
    "C177_padded_refuted",
    "C177_static",
    "C177_mapped"
   ],
   "note": "Refuted: the assertion compares with the number of points of the field and lets this number itself pass, so positions after the last are read beyond the buffer (C177_after_last_refuted) and entries of padded buffers end the program (C177_padded_refuted). Proved for unpadded fields: all entries are given, and positions beyond the number of points end the program (C177_subscript_partial, C177_static, C177_mapped)."
  },
  {
   "property": "C178",
   "status": "proved",
   "theorems": [
    "C178_gathered",
    "C178_ends"
   ],
   "note": "One process with the arguments of all; C44 says what is gathered. That the other processes wait for one that has ended is not modelled."
  },
  {
   "property": "C179",
   "status": "partial",
   "theorems": [
    "C179_one_by_one_partial",
    "C179_nan_refuted"
   ],
   "note": "Refuted: attributes of variables registered before are read again and compared with themselves as doubles, so after a variable with a NaN, for instance a fill value set by another program, every further registration throws (C179_nan_refuted). Proved for any number of calls: they succeed without NaN, and after calls that succeeded a further one succeeds if and only if no attribute of a variable registered before holds a NaN (C179_one_by_one_partial)."
  }
 ]
}