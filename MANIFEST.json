{
 "claims": [
  {
   "property": "C01",
   "status": "proved",
   "theorems": [
    "C01_ranges_expand_back",
    "C01_ranges_nonempty_and_maximal"
   ],
   "note": ""
  },
  {
   "property": "C02",
   "status": "proved",
   "theorems": [
    "C02_unchunked_read",
    "C02_unchunked_large_buffer",
    "C02_unchunked_small_buffer",
    "C02_lost_row_refuted",
    "C02_unchunked_errors"
   ],
   "note": ""
  },
  {
   "property": "C03",
   "status": "proved",
   "theorems": [
    "C03_chunked_read",
    "C03_chunked_equals_unchunked"
   ],
   "note": ""
  },
  {
   "property": "C04",
   "status": "proved",
   "theorems": [
    "C04_chunked_unordered_refuted",
    "C04_chunked_empty_range_refuted"
   ],
   "note": "Finding: both theorems are counterexamples to order-independence of the chunked reader."
  },
  {
   "property": "C05",
   "status": "proved",
   "theorems": [
    "C05_remote_read",
    "C05_overlap_is_error",
    "C05_slices_sent",
    "C05_wrong_size",
    "C05_remote_no_ranges_refuted"
   ],
   "note": "C05_remote_no_ranges_refuted records that a mask array without rows makes the remote reader raise."
  },
  {
   "property": "C06",
   "status": "proved",
   "theorems": [
    "C06_layout_independent",
    "C06_empty_dataset",
    "C06_index_dataset"
   ],
   "note": ""
  },
  {
   "property": "C07",
   "status": "proved",
   "theorems": [
    "C07_spatial_complete",
    "C07_spatial_complete_from_file"
   ],
   "note": ""
  },
  {
   "property": "C08",
   "status": "proved",
   "theorems": [
    "C08_exact_cells",
    "C08_exact_cells_any_form",
    "C08_touching_is_overlap"
   ],
   "note": ""
  },
  {
   "property": "C09",
   "status": "proved",
   "theorems": [
    "C09_closed_boundary_refuted"
   ],
   "note": "Finding: counterexample on the closed boundary."
  },
  {
   "property": "C10",
   "status": "proved",
   "theorems": [
    "C10_value_error_iff",
    "C10_error_leaves_mask_alone"
   ],
   "note": ""
  },
  {
   "property": "C11",
   "status": "proved",
   "theorems": [
    "C11_union",
    "C11_union_order_and_repetition"
   ],
   "note": ""
  },
  {
   "property": "C12",
   "status": "proved",
   "theorems": [
    "C12_conversion_between_unions_refuted",
    "C12_bool_form_union_only_shrinks",
    "C12_failed_property_between_unions_refuted"
   ],
   "note": "Finding: two counterexamples to C11 and the general statement that in boolean form nothing is ever added."
  },
  {
   "property": "C13",
   "status": "proved",
   "theorems": [
    "C13_spatial_succeeds_iff",
    "C13_indices_succeed_iff",
    "C13_property_always_allowed",
    "C13_failing_call_keeps_selection",
    "C13_successful_histories"
   ],
   "note": "ok_op restricts index operations to indices inside the file and property values to one value per particle; nothing else is assumed about the history."
  },
  {
   "property": "C14",
   "status": "proved",
   "theorems": [
    "C14_property_exact",
    "C14_property_commute"
   ],
   "note": ""
  },
  {
   "property": "C15",
   "status": "proved",
   "theorems": [
    "C15_conversion_keeps_selection",
    "C15_bool_to_ranges",
    "C15_range_form_size"
   ],
   "note": ""
  },
  {
   "property": "C16",
   "status": "proved",
   "theorems": [
    "C16_indices_range_form",
    "C16_indices_bool_form",
    "C16_range_form_does_not_check_bounds",
    "C16_bool_form_checks_bounds",
    "C16_read_indices"
   ],
   "note": "C16_read_indices composes the mask with the reader."
  },
  {
   "property": "C17",
   "status": "proved",
   "theorems": [
    "C17_counts_and_offsets",
    "C17_masked_cells_tile",
    "C17_sorted_partition_refuted"
   ],
   "note": "C17_sorted_partition_refuted is a finding: the counts are wrong for sorted cells with a duplicated offset."
  },
  {
   "property": "C18",
   "status": "proved",
   "theorems": [
    "C18_negative_count_refuted",
    "C18_empty_mask_when_tiled"
   ],
   "note": "Finding: counterexample; C18_empty_mask_when_tiled gives the positive side."
  },
  {
   "property": "C19",
   "status": "proved",
   "theorems": [
    "C19_no_duplicates",
    "C19_whole_box"
   ],
   "note": ""
  },
  {
   "property": "C20",
   "status": "proved",
   "theorems": [
    "C20_fields_aligned",
    "C20_unmasked_field",
    "C20_columns_of_rows",
    "C20_misaligned_fields_refuted",
    "C20_remote_empty_selection_refuted"
   ],
   "note": "C20_misaligned_fields_refuted is a finding (silent misalignment between differently stored fields); C20_remote_empty_selection_refuted: remote datasets cannot be read with an empty spatial selection."
  },
  {
   "property": "C21",
   "status": "proved",
   "theorems": [
    "C21_lazy_loading_is_transparent",
    "C21_read_at_most_once",
    "C21_only_accessed_fields_are_read",
    "C21_attributes_of_a_type",
    "C21_attributes_without_mask"
   ],
   "note": ""
  },
  {
   "property": "C22",
   "status": "proved",
   "theorems": [
    "C22_subset_holds_masked_rows",
    "C22_load_equals_masked_load",
    "C22_subset_again",
    "C22_unconstrained_refused",
    "C22_empty_dataset_fails",
    "C22_subset_of_subset_refuted"
   ],
   "note": "C22_subset_of_subset_refuted and C22_empty_dataset_fails are findings. Links, attributes and datasets of shape (n,1) or more than two axes are not modelled; which datasets are visited is not part of this model."
  },
  {
   "property": "C23",
   "status": "proved",
   "theorems": [
    "C23_mask_of_subset"
   ],
   "note": "Regions and cell extents as in C08."
  },
  {
   "property": "C24",
   "status": "proved",
   "theorems": [
    "C24_output_type_stable",
    "C24_recognised_types_are_writable",
    "C24_subset_file_type",
    "C24_kinds"
   ],
   "note": ""
  },
  {
   "property": "C25",
   "status": "proved",
   "theorems": [
    "C25_conversions_exact",
    "C25_copies_exact",
    "C25_to_exact",
    "C25_conversion_keeps_meaning",
    "C25_roundtrip",
    "C25_idempotent"
   ],
   "note": "Exact real arithmetic; covers the in-place and the copying methods and to(comoving=...). Uses the standard library's axioms of the real numbers (listed by Print Assumptions)."
  },
  {
   "property": "C26",
   "status": "proved",
   "theorems": [
    "C26_numbers",
    "C26_numbers_of_one",
    "C26_comparisons_of_numbers",
    "C26_entrywise",
    "C26_expressions",
    "C26_comparisons",
    "C26_unknown_rejected",
    "C26_unlike_rejected",
    "C26_accepted_sum_error",
    "C26_unlike_sum_accepted_refuted",
    "C26_power_by_array"
   ],
   "note": "Theorems for nested expressions, comparisons, rejections, the error of sums accepted within tolerance, and a concrete accepted sum of unlike exponents (a**4 + a**5 at a = 0.01). Units are left to unyt. Uses the standard library's axioms of the real numbers (listed by Print Assumptions)."
  },
  {
   "property": "C27",
   "status": "proved",
   "theorems": [
    "C27_mixed_result",
    "C27_mixed_value_wrong"
   ],
   "note": "Finding: lines 950-961 convert the operands that are already physical. Uses the standard library's axioms of the real numbers (listed by Print Assumptions)."
  },
  {
   "property": "C28",
   "status": "proved",
   "theorems": [
    "C28_verified_exact",
    "C28_never_converted",
    "C28_conversion_raises",
    "C28_new_array",
    "C28_in_place",
    "C28_view",
    "C28_no_array"
   ],
   "note": "Heap model with shared buffers; the provenance relation covers indirect derivation. Re-wrapping with another valid_transform is excluded here and is C51. Uses the standard library's axioms of the real numbers (listed by Print Assumptions)."
  },
  {
   "property": "C29",
   "status": "proved",
   "theorems": [
    "C29_label_table",
    "C29_power_table",
    "C29_comparison_table",
    "C29_kept_label",
    "C29_many_product",
    "C29_labels_homomorphism",
    "C29_values_homomorphism",
    "C29_mul_div_inverse"
   ],
   "note": "Uses the standard library's axioms of the real numbers (listed by Print Assumptions)."
  },
  {
   "property": "C30",
   "status": "proved",
   "theorems": [
    "C30_equality_exact",
    "C30_equality_meaning",
    "C30_reflexive",
    "C30_redshift",
    "C30_exponents_lost_at_one",
    "C30_not_symmetric_refuted",
    "C30_not_transitive_refuted"
   ],
   "note": "Symmetry turned out to be false (np.isclose is relative to its second argument). Uses the standard library's axioms of the real numbers (listed by Print Assumptions)."
  },
  {
   "property": "C31",
   "status": "proved",
   "theorems": [
    "C31_ids_consecutive",
    "C31_type_order"
   ],
   "note": "Theorems are about reachable states of a model of the writer with shared array memory; op_shaped only says that an array has as many numbers as its shape."
  },
  {
   "property": "C32",
   "status": "proved",
   "theorems": [
    "C32_written_ids_distinct",
    "C32_duplicates_rejected",
    "C32_distinct_accepted",
    "C32_given_ids_written"
   ],
   "note": "C32_duplicates_rejected, C32_distinct_accepted and C32_given_ids_written give the three cases."
  },
  {
   "property": "C33",
   "status": "proved",
   "theorems": [
    "C33_read_back",
    "C33_zero_exponent_refuted"
   ],
   "note": "Finding: C33_zero_exponent_refuted. Unit sizes are real numbers; exact_units says that the reader's unit rounding (C55) leaves the system unchanged; no_mutation and one_system exclude the failures of C52."
  },
  {
   "property": "C34",
   "status": "proved",
   "theorems": [
    "C34_snake_case",
    "C34_alphabet",
    "C34_no_upper",
    "C34_unchanged_iff",
    "C34_idempotent",
    "C34_letters_kept",
    "C34_camel_injective",
    "C34_collision_refuted"
   ],
   "note": "ASCII names. C34_collision_refuted is a finding."
  },
  {
   "property": "C35",
   "status": "proved",
   "theorems": [
    "C35_user_handles_stay_open",
    "C35_open_until_closed",
    "C35_used_while_open",
    "C35_library_handles_closed",
    "C35_functions_leave_nothing_open",
    "C35_closed_object_readable",
    "C35_lent_object_finished",
    "C35_lent_handle_used",
    "C35_errors_passed_on",
    "C35_path_opened_once",
    "C35_succeeds",
    "C35_loaded_metadata_again_refuted",
    "C35_raising_constructor_refuted",
    "C35_asked_again_refuted",
    "C35_masked_without_groups_refuted",
    "C35_closed_handle_refused",
    "C35_constructors_open",
    "C35_nothing_there"
   ],
   "note": "Remote files not modelled; the accesses of each constructor are an arbitrary list (plan), each guarded against KeyError or not. Findings: the four _refuted theorems."
  },
  {
   "property": "C36",
   "status": "proved",
   "theorems": [
    "C36_each_particle_once",
    "C36_fast",
    "C36_histogram",
    "C36_renormalised",
    "C36_reference",
    "C36_subsampled",
    "C36_slice",
    "C36_volume",
    "C36_gpu",
    "C36_gpu_interleaved",
    "C36_limited_z_refuted",
    "C36_single_layer_refuted"
   ],
   "note": "Threads take slices of the particle list as in the source, in any order of completion; for the GPU the threads are one for each particle and copy in any order. All images in exact arithmetic. The limited-z parallel volume is refuted (shape mismatch, or a single layer repeated)."
  },
  {
   "property": "C37",
   "status": "proved",
   "theorems": [
    "C37_copies_complete",
    "C37_no_copy_twice",
    "C37_wide_kernel_refuted",
    "C37_limited_z",
    "C37_limited_z_refuted"
   ],
   "note": "Completeness of the copies for points of the image and for slice positions inside the box; no duplicates; counterexamples for kernels wider than the box and for scatter_limited_z with a region larger than the box."
  },
  {
   "property": "C38",
   "status": "proved",
   "theorems": [
    "C38_pixels",
    "C38_in_bounds"
   ],
   "note": "Pixel equals the sum over all copies up to any N that covers the image of the Wendland kernel at the pixel centre, or of the mass over the pixel area for kernels narrower than a pixel. Real arithmetic."
  },
  {
   "property": "C39",
   "status": "proved",
   "theorems": [
    "C39_total",
    "C39_full_box",
    "C39_pixels"
   ],
   "note": "Total and single pixels of the histogram backend, for any box; full box gives the total mass."
  },
  {
   "property": "C40",
   "status": "proved",
   "theorems": [
    "C40_deposited",
    "C40_conserved_iff",
    "C40_small",
    "C40_not_conserved_refuted"
   ],
   "note": "Deposited mass of an interior particle as a formula, the exact condition for conservation, and a particle for which more than its mass is deposited."
  },
  {
   "property": "C41",
   "status": "proved",
   "theorems": [
    "C41_slice_pixels",
    "C41_volume_voxels",
    "C41_slice_refuted",
    "C41_volume_refuted"
   ],
   "note": "Exact pixel and voxel sums with the upper row left out, and a particle whose slice and volume images are not symmetric under reflection."
  },
  {
   "property": "C42",
   "status": "proved",
   "theorems": [
    "C42_periodic",
    "C42_backwards",
    "C42_empty_range_refuted",
    "C42_not_periodic",
    "C42_too_deep",
    "C42_wanted",
    "C42_mask",
    "C42_mask_length"
   ],
   "note": "C42_empty_range_refuted: a range of zero length selects every particle. C42_backwards: a range given backwards selects the particles outside of it."
  },
  {
   "property": "C43",
   "status": "proved",
   "theorems": [
    "C43_trimmed",
    "C43_pixels",
    "C43_total",
    "C43_not_square_refuted",
    "C43_no_frame",
    "C43_no_region",
    "C43_stored",
    "C43_histogram"
   ],
   "note": "C43_not_square_refuted: a two by one region gives twice the surface density. C43_no_frame: fields without a comoving flag are not normalised at all. C43_stored: periodic pictures wrap the dataset's coordinates in place."
  },
  {
   "property": "C44",
   "status": "proved",
   "theorems": [
    "C44_one_cell",
    "C44_values",
    "C44_total",
    "C44_translation",
    "C44_parallel",
    "C44_folding"
   ],
   "note": "Exact arithmetic; floating-point rounding of x % box (which can give the box itself) is outside the model."
  },
  {
   "property": "C45",
   "status": "proved",
   "theorems": [
    "C45_rotation",
    "C45_parallel_is_reflection",
    "C45_aligned_vector_refuted",
    "C45_unknown_axis",
    "C45_rotated_coordinates"
   ],
   "note": "Reals; np.linalg.inv is the exact inverse. A zero vector (NaN in the source) is excluded. C45_aligned_vector_refuted: a vector along the axis is turned round by a reflection."
  },
  {
   "property": "C46",
   "status": "proved",
   "theorems": [
    "C46_blocks",
    "C46_smoothing_lengths",
    "C46_distances",
    "C46_block_size_irrelevant",
    "C46_rejected"
   ],
   "note": "KDTree is modelled by what it computes (sorted periodic distances padded with infinity; points outside the box refused)."
  },
  {
   "property": "C47",
   "status": "proved",
   "theorems": [
    "C47_lookup",
    "C47_own_entry",
    "C47_monotone",
    "C47_too_few_refuted",
    "C47_vertical_list_refuted"
   ],
   "note": "Reals. Refutations: too few second values read out of bounds; a list of vertical values raises TypeError (np.ndarray instead of np.array)."
  },
  {
   "property": "C48",
   "status": "proved",
   "theorems": [
    "C48_chunk_ranges",
    "C48_no_other_chunks",
    "C48_empty_range_refuted"
   ],
   "note": "Hypotheses as in C03: ranges inside the dataset with starts and ends in order. The part about unneeded chunks excludes empty ranges; the refuted theorem shows why."
  },
  {
   "property": "C49",
   "status": "proved",
   "theorems": [
    "C49_compression_nests",
    "C49_compression_depth",
    "C49_compression_binary",
    "C49_compression_plain"
   ],
   "note": "Finding: ret_comp takes the (hasattr, value) pair. Uses the standard library's axioms of the real numbers (listed by Print Assumptions)."
  },
  {
   "property": "C50",
   "status": "proved",
   "theorems": [
    "C50_view_conversion_changes_original",
    "C50_failed_wrap_changes_original"
   ],
   "note": "Finding. Uses the standard library's axioms of the real numbers (listed by Print Assumptions)."
  },
  {
   "property": "C51",
   "status": "proved",
   "theorems": [
    "C51_rewrap_lifts_protection"
   ],
   "note": "Finding. Uses the standard library's axioms of the real numbers (listed by Print Assumptions)."
  },
  {
   "property": "C52",
   "status": "proved",
   "theorems": [
    "C52_state_at_write",
    "C52_second_writer_refuted",
    "C52_converted_later_refuted"
   ],
   "note": "C52_second_writer_refuted and C52_converted_later_refuted are findings."
  },
  {
   "property": "C53",
   "status": "proved",
   "theorems": [
    "C53_box_read_back",
    "C53_box_is_comoving",
    "C53_physical_box_refuted"
   ],
   "note": "C53_physical_box_refuted is a finding."
  },
  {
   "property": "C54",
   "status": "proved",
   "theorems": [
    "C54_header_counts",
    "C54_fields_of_groups",
    "C54_empty_type_fails",
    "C54_incomplete_causes"
   ],
   "note": "C54_empty_type_fails is a finding (file truncated before the IndexError)."
  },
  {
   "property": "C55",
   "status": "proved",
   "theorems": [
    "C55_nearest_unit",
    "C55_rounding_loses_figures"
   ],
   "note": "The decade of a number is a parameter-free real function; decimal printing is modelled as exact rounding to five figures."
  },
  {
   "property": "C56",
   "status": "proved",
   "theorems": [
    "C56_smoothing_lengths",
    "C56_unequal_sides_rejected"
   ],
   "note": ""
  },
  {
   "property": "C57",
   "status": "proved",
   "theorems": [
    "C57_last_field_wins",
    "C57_every_attribute_has_a_field",
    "C57_unreachable_iff",
    "C57_camel_all_reachable",
    "C57_columns",
    "C57_columns_when",
    "C57_columns_refuted",
    "C57_collision_refuted"
   ],
   "note": "Findings: C57_columns_refuted, C57_collision_refuted."
  },
  {
   "property": "C58",
   "status": "proved",
   "theorems": [
    "C58_soap_injective",
    "C58_names",
    "C58_nice_names",
    "C58_refused",
    "C58_unknown_kind",
    "C58_deeper_paths_refuted",
    "C58_nice_name_refuted"
   ],
   "note": "Findings: C58_deeper_paths_refuted, C58_nice_name_refuted."
  },
  {
   "property": "C59",
   "status": "proved",
   "theorems": [
    "C59_nearest",
    "C59_not_periodic"
   ],
   "note": "KDTree modelled by what it computes; ties may resolve to any of the closest particles."
  },
  {
   "property": "C60",
   "status": "proved",
   "theorems": [
    "C60_axes_exchanged",
    "C60_bower_refuted",
    "C60_components_in_range",
    "C60_refused"
   ],
   "note": "C60_bower_refuted shows red placed at horizontal 1 and blue at vertical 1 come out exchanged."
  },
  {
   "property": "C61",
   "status": "proved",
   "theorems": [
    "C61_density",
    "C61_checks",
    "C61_scale_free",
    "C61_physical_positions_refuted"
   ],
   "note": "C61_physical_positions_refuted: positions converted to physical are folded with the comoving box length."
  },
  {
   "property": "C62",
   "status": "proved",
   "theorems": [
    "C62_mask_length",
    "C62_slice"
   ],
   "note": "slice_scatter backend; the nearest neighbour backend is C59."
  },
  {
   "property": "C63",
   "status": "proved",
   "theorems": [
    "C63_mask_length",
    "C63_volume",
    "C63_not_cubic",
    "C63_tiny_not_cubic_refuted"
   ],
   "note": "C63_tiny_not_cubic_refuted: sides below 1e-8 (in the unit of the coordinates) are never refused."
  },
  {
   "property": "C64",
   "status": "proved",
   "theorems": [
    "C64_functions",
    "C64_products",
    "C64_one_array",
    "C64_several_arrays",
    "C64_unequal_labels_rejected",
    "C64_tuples_unlabelled"
   ],
   "note": "numpy's functions are parameters with a scaling law, and explicit for fourteen of them."
  },
  {
   "property": "C65",
   "status": "proved",
   "theorems": [
    "C65_variance",
    "C65_variance_refuted",
    "C65_fourier",
    "C65_fourier_refuted",
    "C65_einsum",
    "C65_einsum_rejects",
    "C65_rounding_refuted",
    "C65_determinants",
    "C65_determinant",
    "C65_masked_product",
    "C65_clip_keywords_ignored",
    "C65_where_condition"
   ],
   "note": "Counterexamples are stated with the exact factor."
  },
  {
   "property": "C66",
   "status": "proved",
   "theorems": [
    "C66_stacks",
    "C66_concatenate",
    "C66_labels_not_compared_refuted",
    "C66_plain_first",
    "C66_select",
    "C66_select_default",
    "C66_select_values",
    "C66_select_refuted",
    "C66_choose",
    "C66_block",
    "C66_block_unknown"
   ],
   "note": "Arrays are flat; shapes are left to the value function."
  },
  {
   "property": "C67",
   "status": "proved",
   "theorems": [
    "C67_writing",
    "C67_unequal_labels_rejected",
    "C67_plain_numbers",
    "C67_out",
    "C67_out_refuted"
   ],
   "note": "A way of writing is any function commuting with positive scaling."
  },
  {
   "property": "C68",
   "status": "proved",
   "theorems": [
    "C68_average",
    "C68_average_plain_weights",
    "C68_reductions",
    "C68_meshgrid",
    "C68_initial",
    "C68_comparisons",
    "C68_isclose_refuted",
    "C68_unequal_labels_rejected",
    "C68_interp_labels_refuted"
   ],
   "note": "average: numpy >= 2.4.1 branch."
  },
  {
   "property": "C69",
   "status": "proved",
   "theorems": [
    "C69_counts",
    "C69_counts_many_axes",
    "C69_counts_meaning",
    "C69_density_meaning",
    "C69_cells_meaning",
    "C69_density",
    "C69_density_two_axes",
    "C69_density_many_axes",
    "C69_many_axes_bins_refuted",
    "C69_many_axes_labels",
    "C69_bin_labels_refuted",
    "C69_equal_values_refuted",
    "C69_bin_edges",
    "C69_edges_meaning"
   ],
   "note": "Edges are taken to increase; range= is not modelled."
  },
  {
   "property": "C70",
   "status": "proved",
   "theorems": [
    "C70_shapes",
    "C70_bins",
    "C70_default_edges",
    "C70_uniform",
    "C70_scale",
    "C70_shift",
    "C70_symmetric",
    "C70_axes",
    "C70_ranges",
    "C70_parseval",
    "C70_box_refuted"
   ],
   "note": "Exact arithmetic; fftn is the discrete Fourier transform; units and labels are those of the box."
  },
  {
   "property": "C71",
   "status": "proved",
   "theorems": [
    "C71_particles",
    "C71_folding",
    "C71_bins"
   ],
   "note": "Grids of both fields have the same box; the total masses are not zero."
  },
  {
   "property": "C72",
   "status": "proved",
   "theorems": [
    "C72_choice",
    "C72_errors",
    "C72_use_errors",
    "C72_minimal_needed",
    "C72_label_refuted",
    "C72_zero_wavenumber",
    "C72_label"
   ],
   "note": "Foldings of a dictionary are distinct. np.geomspace is taken for positive ends."
  },
  {
   "property": "C73",
   "status": "proved",
   "theorems": [
    "C73_writes",
    "C73_data",
    "C73_only_data",
    "C73_links",
    "C73_only_links",
    "C73_metadata",
    "C73_header",
    "C73_cells",
    "C73_header_words"
   ],
   "note": "Trees are finite: no cyclic links. Datasets have one or two axes. Within a phase all objects are prepared before the first is made."
  },
  {
   "property": "C74",
   "status": "proved",
   "theorems": [
    "C74_cells_errors",
    "C74_data_errors",
    "C74_stray",
    "C74_bare_groups",
    "C74_nested_links",
    "C74_words_drop",
    "C74_preserved_refuted",
    "C74_substring_refuted",
    "C74_extra_group_refuted"
   ],
   "note": "Findings; the first four theorems are general, the refutations are concrete files."
  },
  {
   "property": "C75",
   "status": "proved",
   "theorems": [
    "C75_round_trip",
    "C75_access",
    "C75_access_none",
    "C75_bad_unit",
    "C75_name_line",
    "C75_unit_line",
    "C75_says_name",
    "C75_says_unit",
    "C75_no_data",
    "C75_single_blank_refuted",
    "C75_repeated_name_refuted",
    "C75_no_header_refuted"
   ],
   "note": "Text is bytes; str.lower and \\s of ASCII. Units and numbers are parsed by arbitrary functions."
  },
  {
   "property": "C76",
   "status": "proved",
   "theorems": [
    "C76_columns",
    "C76_words",
    "C76_errors",
    "C76_characters",
    "C76_blank_line_refuted",
    "C76_first_line_refuted",
    "C76_float_words_refuted"
   ],
   "note": "Numbers are parsed by arbitrary functions."
  },
  {
   "property": "C77",
   "status": "proved",
   "theorems": [
    "C77_no_header",
    "C77_errors",
    "C77_time",
    "C77_singles",
    "C77_scale_factor",
    "C77_box_size",
    "C77_handed_on",
    "C77_masses",
    "C77_texts",
    "C77_date",
    "C77_numbers",
    "C77_radiation",
    "C77_gas_gamma",
    "C77_dictionaries",
    "C77_cosmology",
    "C77_subhalos",
    "C77_accepts_iff",
    "C77_no_header_refused",
    "C77_kind",
    "C77_single_count_refuted"
   ],
   "note": "Units by dimension; dates and the conversion of the cosmology by arbitrary functions; ASCII text."
  },
  {
   "property": "C78",
   "status": "proved",
   "theorems": [
    "C78_groups",
    "C78_snapshot_names_differ",
    "C78_named_types",
    "C78_absent_group_refuted",
    "C78_ninth_type_refuted",
    "C78_no_counts_refuted",
    "C78_nested_group_refuted",
    "C78_text_order_refuted"
   ],
   "note": "Headers whose counts are no array are refused here with one error (the code fails later)."
  },
  {
   "property": "C79",
   "status": "proved",
   "theorems": [
    "C79_tables",
    "C79_no_tables",
    "C79_splitting_unique",
    "C79_splitting_exists",
    "C79_last_to_refuted",
    "C79_no_columns_refuted",
    "C79_case_refuted"
   ],
   "note": "The regular expression is modelled by its greedy search and proved equal to the longest splitting."
  },
  {
   "property": "C80",
   "status": "proved",
   "theorems": [
    "C80_errors",
    "C80_members",
    "C80_values",
    "C80_units",
    "C80_refused",
    "C80_hidden_field_refuted"
   ],
   "note": "Attributes that are no numbers are refused with one error."
  },
  {
   "property": "C81",
   "status": "proved",
   "theorems": [
    "C81_conversion",
    "C81_temperature",
    "C81_radiation",
    "C81_missing_refused",
    "C81_snapshot"
   ],
   "note": "Reals for the temperature; a negative Omega_r gives NaN in numpy and 0 in the model. w0waCDM itself is not modelled."
  },
  {
   "property": "C82",
   "status": "proved",
   "theorems": [
    "C82_count",
    "C82_masses",
    "C82_lost_refuted",
    "C82_negative_refuted",
    "C82_fractions_refuted",
    "C82_fractional_refuted",
    "C82_default_ur_refuted"
   ],
   "note": "Texts as masses or degeneracies are refused at once in the model. Refutations: C82_lost_refuted, C82_negative_refuted, C82_fractions_refuted, C82_fractional_refuted, C82_default_ur_refuted."
  },
  {
   "property": "C83",
   "status": "proved",
   "theorems": [
    "C83_plane",
    "C83_space",
    "C83_centre"
   ],
   "note": "Exact arithmetic: the single precision kernel is not told apart from the double precision one."
  },
  {
   "property": "C84",
   "status": "proved",
   "theorems": [
    "C84_deviation_plane",
    "C84_deviation_space",
    "C84_radii",
    "C84_radii_refuted",
    "C84_decreasing",
    "C84_flat",
    "C84_smooth",
    "C84_scaling"
   ],
   "note": "C84_radii_refuted: one radius for projections and volumes."
  },
  {
   "property": "C85",
   "status": "proved",
   "theorems": [
    "C85_hsv",
    "C85_hue_refuted",
    "C85_image",
    "C85_cached",
    "C85_not_cached"
   ],
   "note": "matplotlib's conversions are arguments; images have four channels."
  },
  {
   "property": "C86",
   "status": "proved",
   "theorems": [
    "C86_factor_exact",
    "C86_bypass_exact",
    "C86_numbers_errors",
    "C86_cosmo_errors",
    "C86_quantity_errors",
    "C86_factor",
    "C86_numbers",
    "C86_cosmo",
    "C86_cosmo_meaning",
    "C86_ignored_refuted",
    "C86_lawful",
    "C86_bypass_refuted",
    "C86_bypass",
    "C86_list",
    "C86_list_relabelled_refuted",
    "C86_plain_list",
    "C86_list_protection_refuted",
    "C86_quantity",
    "C86_quantity_number",
    "C86_quantity_relabelled_refuted",
    "C86_quantity_factor_refuted",
    "C86_foreign_refuted",
    "C86_foreign"
   ],
   "note": "The unit of a list is an argument (unyt finds it); lists of arrays are treated with one common factor."
  },
  {
   "property": "C87",
   "status": "proved",
   "theorems": [
    "C87_in_place_exact",
    "C87_copies_exact",
    "C87_to_exact",
    "C87_compatible_exact",
    "C87_pickle",
    "C87_kept",
    "C87_accepts",
    "C87_same",
    "C87_value",
    "C87_failed",
    "C87_failed_unit_refuted",
    "C87_compatible"
   ],
   "note": "Units are any type with dimension and size; equivalences are left out."
  },
  {
   "property": "C88",
   "status": "proved",
   "theorems": [
    "C88_errors",
    "C88_incomplete_errors",
    "C88_two_places",
    "C88_code",
    "C88_compiler",
    "C88_libraries",
    "C88_hydrodynamics",
    "C88_viscosity",
    "C88_diffusion",
    "C88_incomplete_snapshot",
    "C88_strings_refuted"
   ],
   "note": "Python's int of a text is an argument; numbers are rational, text is ASCII."
  },
  {
   "property": "C89",
   "status": "proved",
   "theorems": [
    "C89_report_exact",
    "C89_listing_exact",
    "C89_significant",
    "C89_accepts_iff",
    "C89_invalid",
    "C89_odd_refuted",
    "C89_redshifts",
    "C89_report",
    "C89_unreadable",
    "C89_catalogues_refuted"
   ],
   "note": "str of dates, cosmologies and other values, textwrap.wrap and the reading of units are arguments; the report is stated for texts and flags of the types that SWIFT writes."
  },
  {
   "property": "C90",
   "status": "proved",
   "theorems": [
    "C90_kinds_agree",
    "C90_refused",
    "C90_every_call",
    "C90_histories",
    "C90_tables",
    "C90_property_rows",
    "C90_unknown_name",
    "C90_unknown_group",
    "C90_missing_table",
    "C90_missing_box",
    "C90_soap_boxes_refuted"
   ],
   "note": "Names asked for are not attributes the object has anyway; group names do not end in _size of another one; all tables have one row per cell."
  },
  {
   "property": "C91",
   "status": "proved",
   "theorems": [
    "C91_reference_pixels",
    "C91_reference_as_fast",
    "C91_reference_unresolved",
    "C91_subsampled_pixels",
    "C91_points",
    "C91_fractions",
    "C91_tiny_mass",
    "C91_full_box",
    "C91_counted_twice_refuted"
   ],
   "note": "Exact arithmetic. Coordinates are in the periodic box and kernels fit in it, as for C38."
  },
  {
   "property": "C92",
   "status": "proved",
   "theorems": [
    "C92_pixels",
    "C92_not_square",
    "C92_zero_width",
    "C92_bounds",
    "C92_order",
    "C92_images",
    "C92_return_types",
    "C92_failures",
    "C92_fresh",
    "C92_refused",
    "C92_options",
    "C92_peak_missed",
    "C92_shared_norm_refuted"
   ],
   "note": "Exact arithmetic. matplotlib's Normalize is modelled as documented, colour maps are arbitrary functions; figures are lists of curves."
  },
  {
   "property": "C93",
   "status": "proved",
   "theorems": [
    "C93_table",
    "C93_labels",
    "C93_stages",
    "C93_sound",
    "C93_numbers",
    "C93_right_iff",
    "C93_right_functions",
    "C93_wrong_functions_refuted",
    "C93_floor_divide_alike",
    "C93_reduce_columns",
    "C93_reduce_default_axis_refuted",
    "C93_initial_unchecked_refuted",
    "C93_never",
    "C93_out_loses_compression",
    "C93_operators"
   ],
   "note": "Exact arithmetic; what numpy computes from the numbers is a parameter, with explicit functions where values matter. Units are unyt's and not modelled. C93_labels is for at most two arguments (all of numpy's ufuncs but clip, which C93_never covers)."
  },
  {
   "property": "C94",
   "status": "proved",
   "theorems": [
    "C94_exact",
    "C94_positional",
    "C94_meaning",
    "C94_mix_unconverted_refuted",
    "C94_keyword_fixed",
    "C94_calls"
   ],
   "note": "Exact arithmetic; units and numpy's functions are parameters, see C64."
  },
  {
   "property": "C95",
   "status": "proved",
   "theorems": [
    "C95_classes",
    "C95_methods",
    "C95_no_other_method",
    "C95_indexing",
    "C95_attributes",
    "C95_quantity_with_axes_refuted",
    "C95_times_unit",
    "C95_ufunc_results",
    "C95_hook_results",
    "C95_hook_agrees",
    "C95_answers",
    "C95_classes_asked",
    "C95_mixed",
    "C95_pure",
    "C95_refused",
    "C95_text",
    "C95_text_tells_frame"
   ],
   "note": "unyt's and numpy's own methods are arbitrary functions returning objects; the labels of ufuncs are C93; numpy's dispatch protocol (NEP 18) is modelled as documented."
  },
  {
   "property": "C96",
   "status": "proved",
   "theorems": [
    "C96_comparisons",
    "C96_unequal",
    "C96_sums",
    "C96_products",
    "C96_reflected",
    "C96_foreign_operands",
    "C96_total",
    "C96_transitive",
    "C96_exponents",
    "C96_order_and_equality_refuted",
    "C96_texts"
   ],
   "note": "Expressions are powers a**e with a real exponent; exact arithmetic; sympy's and Python's texts of expressions and numbers are parameters without blanks (commas)."
  },
  {
   "property": "C97",
   "status": "proved",
   "theorems": [
    "C97_sums",
    "C97_left_unique",
    "C97_numpy",
    "C97_decreasing",
    "C97_decreasing_numpy",
    "C97_order_refuted",
    "C97_all_axes_refuted",
    "C97_arguments",
    "C97_calls",
    "C97_axes_kept",
    "C97_cumulative",
    "C97_running",
    "C97_beyond_refuted"
   ],
   "note": "Arrays are shapes with a real number at each index; exact arithmetic; numpy's apply_over_axes, sum and cumsum are modelled from their documented code."
  },
  {
   "property": "C98",
   "status": "proved",
   "theorems": [
    "C98_two_arrays",
    "C98_eigenvalues",
    "C98_unequal_labels_rejected",
    "C98_lstsq_scales",
    "C98_eig_scales",
    "C98_linspace_scales",
    "C98_sinc_refuted",
    "C98_sinc",
    "C98_sinc_numbers",
    "C98_savetxt",
    "C98_savetxt_forgets_refuted"
   ],
   "note": "numpy's functions are parameters that scale part by part; concrete ones (least squares with one unknown, diagonal matrices, evenly spaced points) are shown to do so. Exact arithmetic; formats of savetxt are not modelled."
  },
  {
   "property": "C99",
   "status": "proved",
   "theorems": [
    "C99_own_attributes",
    "C99_groups",
    "C99_others",
    "C99_empty_recurses",
    "C99_copy_refuted",
    "C99_no_metadata"
   ],
   "note": "The rebuilding of objects by copy and pickle (a new object asked for __setstate__ before it has attributes) is modelled after the Python library. Attributes of the class other than the two properties are not modelled."
  },
  {
   "property": "C100",
   "status": "proved",
   "theorems": [
    "C100_spatial",
    "C100_frames",
    "C100_converted",
    "C100_spatial_refused",
    "C100_no_frame_refused",
    "C100_property",
    "C100_property_numbers",
    "C100_property_refused",
    "C100_property_no_frame"
   ],
   "note": "Lengths are in one unit (no conversion between units of length). The spatial theorem is about values that are rational multiples of one positive number, as MaskModel is over the rationals; the property theorem is over the reals. lower -= boxsize is modelled as a subtraction."
  },
  {
   "property": "C101",
   "status": "proved",
   "theorems": [
    "C101_new",
    "C101_refines",
    "C101_one_value",
    "C101_ranges_stay",
    "C101_dataset_stable",
    "C101_dataset_selection",
    "C101_refused_load",
    "C101_program",
    "C101_course_total",
    "C101_taken_ranges",
    "C101_taken_bools_refuted"
   ],
   "note": "A program does not write to arrays it has taken from the mask. The cell mask is a value: _update_range_masks and the datasets do not hold it."
  },
  {
   "property": "C102",
   "status": "proved",
   "theorems": [
    "C102_project",
    "C102_slice_grid",
    "C102_voxel_grid",
    "C102_backends",
    "C102_parallel_backends",
    "C102_gpu_backend",
    "C102_fast",
    "C102_histogram",
    "C102_renormalised",
    "C102_reference",
    "C102_subsampled",
    "C102_gpu",
    "C102_slice",
    "C102_volume",
    "C102_limited_z",
    "C102_parallel",
    "C102_parallel_others",
    "C102_selection",
    "C102_no_margin_refuted"
   ],
   "note": "Numbers are real numbers. For slices the smoothing lengths are positive. The front-end theorems take the mask argument as None; regions of volumes are cubes."
  },
  {
   "property": "C103",
   "status": "proved",
   "theorems": [
    "C103_field",
    "C103_field_total",
    "C103_counts",
    "C103_sph",
    "C103_nearest",
    "C103_particles",
    "C103_projection_names",
    "C103_slice_names",
    "C103_project",
    "C103_slice",
    "C103_render",
    "C103_gas",
    "C103_histogram",
    "C103_histogram_masses_refuted",
    "C103_missing"
   ],
   "note": "Numbers are real numbers, without units: a group is a tree of arrays, each with its comoving flag. Division by zero density is an error. C103_histogram_masses_refuted shows that a histogram of another field fails without masses."
  },
  {
   "property": "C104",
   "status": "proved",
   "theorems": [
    "C104_project",
    "C104_histogram",
    "C104_slice",
    "C104_render",
    "C104_spatial_project",
    "C104_spatial_slice",
    "C104_spatial_render",
    "C104_no_margin_refuted"
   ],
   "note": "Numbers are real numbers (rational in masks), without units. Datasets on this machine, not remote ones. For slices the smoothing lengths are positive and the backend is sph. The mask argument of the picture functions is None. C104_no_margin_refuted shows that a mask of just the region is not enough."
  },
  {
   "property": "C105",
   "status": "proved",
   "theorems": [
    "C105_values",
    "C105_native",
    "C105_untouched",
    "C105_again",
    "C105_one_value",
    "C105_nested_refuted",
    "C105_masked_read",
    "C105_unmasked_read",
    "C105_compiled_refuted",
    "C105_numba_unused"
   ],
   "note": "Integers and floats are functions of the unsigned number their bytes make. Array-valued fields of structures and overlapping fields are not modelled. What numpy's byteswap does to structures and that numba refuses other byte orders are statements about these libraries (trusted). C105_nested_refuted and C105_compiled_refuted are the exceptions."
  },
  {
   "property": "C106",
   "status": "proved",
   "theorems": [
    "C106_description",
    "C106_compression",
    "C106_units",
    "C106_made",
    "C106_no_units",
    "C106_no_dataset",
    "C106_no_mask_dataset",
    "C106_bytes_refuted",
    "C106_locked_comoving",
    "C106_read_error",
    "C106_labels_differ_refuted",
    "C106_not_numbers",
    "C106_not_number_scale",
    "C106_text_flags",
    "C106_byte_codes",
    "C106_not_utf8",
    "C106_letters_refuted"
   ],
   "note": "Texts are ASCII (bytes carry the text they decode to, if any); how Python writes numbers is a parameter; numbers of attributes are rational, of arrays real. Which rows and columns are read is C20 and C21; the unit system of the file is a parameter (C52-C56). C106_labels_differ_refuted, C106_bytes_refuted and C106_locked_comoving are about behaviour a user may not expect."
  },
  {
   "property": "C107",
   "status": "proved",
   "theorems": [
    "C107_mask_starts",
    "C107_no_mask_refuted",
    "C107_opens",
    "C107_dictionaries",
    "C107_attributes",
    "C107_numbers",
    "C107_fields",
    "C107_bare_header",
    "C107_loads",
    "C107_round_trip",
    "C107_ids",
    "C107_extra_counts_refuted",
    "C107_extra_hides_refuted",
    "C107_extra_type_refuted"
   ],
   "note": "Joins the models of the writer (Writer), of the metadata (Meta) and of the getter (Label). How a real number is stored is a parameter; scale factor and exponents have to be stored exactly (exact_labels), and the reader has to take the units of the file for what they are (exact_units, see C55). Members of groups are listed in the order of their names, as h5py does. C107_extra_counts_refuted, C107_extra_hides_refuted and C107_extra_type_refuted show what an extra header can do. TripMaskModel.v: the start of making a mask (C107_mask_starts, C107_no_mask_refuted)."
  },
  {
   "property": "C108",
   "status": "proved",
   "theorems": [
    "C108_accepted",
    "C108_held",
    "C108_refused",
    "C108_ids_accepted",
    "C108_ids_held",
    "C108_ids_refused",
    "C108_other_names",
    "C108_step",
    "C108_generated",
    "C108_spacing",
    "C108_not_generated",
    "C108_written",
    "C108_unlabelled",
    "C108_ids_units_refuted",
    "C108_box_label_refuted",
    "C108_new_writer"
   ],
   "note": "The dimensions and units of the fields are stated anew in AssignSpec.v (measures, stored_in). C108_ids_units_refuted: masses are accepted as IDs. C108_box_label_refuted: the scale factor of the box is not checked when a writer is made. IDs given as an array are a copy in the model and a view in Python."
  },
  {
   "property": "C109",
   "status": "proved",
   "theorems": [
    "C109_read",
    "C109_unreadable",
    "C109_bytes",
    "C109_round_trip",
    "C109_exact",
    "C109_cosmo_units",
    "C109_default",
    "C109_default_velocities_refuted"
   ],
   "note": "C109_read, _unreadable and _bytes say what is read from the attributes; C109_round_trip extends C107 to units that are not read exactly; C109_default_velocities_refuted is about the default units with the sizes of the astronomical units restricted as in usual_consts, which those of unyt meet (unyt_usual). Attributes that are letters (C109_bytes) are taken for their codes."
  },
  {
   "property": "C110",
   "status": "proved",
   "theorems": [
    "C110_group_seen",
    "C110_other_seen",
    "C110_top_seen",
    "C110_columns_seen",
    "C110_tables_seen",
    "C110_light_seen",
    "C110_opens",
    "C110_type",
    "C110_numbers",
    "C110_subhalos",
    "C110_groups",
    "C110_empty_type_refuted",
    "C110_group_number_refuted"
   ],
   "note": "Combines the tree written by the subset writer (C73, C74) with the metadata objects (C77): ReopenModel.v says what the latter see of the former. C110_opens compares all attributes that do not change, C110_type, C110_numbers and C110_subhalos give the new values, C110_groups compares all groups that are copied whole (Units among them). Names have no slash in them (proper_names). C110_empty_type_refuted and C110_group_number_refuted are the two exceptions."
  },
  {
   "property": "C111",
   "status": "proved",
   "theorems": [
    "C111_exact_fast",
    "C111_exact_histogram",
    "C111_exact_renormalised",
    "C111_exact_reference",
    "C111_exact_subsampled",
    "C111_exact_gpu",
    "C111_exact_slice",
    "C111_exact_volume",
    "C111_exact_deposit",
    "C111_exact_lookup",
    "C111_projections",
    "C111_gpu",
    "C111_slices",
    "C111_volumes"
   ],
   "note": "RoundModel.v states the loops once for any record of operations (arith); nothing is assumed of the operations, so C111_projections, C111_gpu, C111_slices and C111_volumes hold for float32, float64 and fast-math alike. C111_exact_*: with the real numbers as arithmetic these loops equal those of VisModel.v. Sums of integers do not overflow (numba computes them with 64 bits)."
  },
  {
   "property": "C112",
   "status": "proved",
   "theorems": [
    "C112_deposit_iff",
    "C112_deposit_inside",
    "C112_histogram",
    "C112_lookup",
    "C112_remainder",
    "C112_rounded",
    "C112_operations",
    "C112_deposit_edge_refuted",
    "C112_deposit_below_zero_refuted",
    "C112_lookup_nan_refuted"
   ],
   "note": "Positive theorems for real numbers rounded to nearest even with 53 (24) bits and unbounded exponents (Flocq's FLX format); refutations computed with the IEEE operations of Coq.Floats.SpecFloat: C112_deposit_edge_refuted (position 105 - 2^-46 in a box of 105, 128 cells: index 128), C112_deposit_below_zero_refuted, C112_lookup_nan_refuted (the index is -2^31). The operations are in double precision, conversions of the resolution in single. deposit and apply_color_map are compiled with fastmath, which lets the compiler reorder operations; the refutations are computed in the order of the source."
  },
  {
   "property": "C113",
   "status": "proved",
   "theorems": [
    "C113_cell_by_cell",
    "C113_exact",
    "C113_extents_exact",
    "C113_computed",
    "C113_nothing_more",
    "C113_stored_extent",
    "C113_padded_extent",
    "C113_complete",
    "C113_lost_refuted"
   ],
   "note": "RoundMaskModel.v states the selection of cells for any record of operations. C113_exact and C113_extents_exact: over the rationals it is MaskModel.v. C113_complete, C113_padded_extent, C113_nothing_more: real numbers rounded to nearest even with 53 bits (Flocq); differences with the box are exact by Sterbenz' lemma. C113_computed covers all other regions: a cell is kept if a shifted position, as computed, is inside of the bounds, as computed. C113_lost_refuted: IEEE doubles, box of 1, region from 3/8 to 0.1 (next number)."
  },
  {
   "property": "C114",
   "status": "proved",
   "theorems": [
    "C114_exact",
    "C114_integers",
    "C114_arithmetic",
    "C114_order",
    "C114_round_trip",
    "C114_powers_of_two",
    "C114_settles",
    "C114_settles_physical",
    "C114_lossless_refuted"
   ],
   "note": "RoundTripProofs.v: for round to nearest even in Flocq's FLX format, x -> x*f/f and x -> x/f*f are idempotent (C114_settles for arrays and sequences of conversions, C114_settles_physical). Exponents are unbounded: no overflow, no subnormal numbers. C114_exact: with real numbers the model is that of CosmoModel.v. Arrays of float32 are covered with p = 24 and the factor rounded to 24 bits. Copies of integer arrays are not modelled."
  },
  {
   "property": "C115",
   "status": "proved",
   "theorems": [
    "C115_exact",
    "C115_exact_parallel",
    "C115_pixel",
    "C115_parallel",
    "C115_parallel_serial",
    "C115_roundings",
    "C115_one_thread",
    "C115_order",
    "C115_at_least",
    "C115_nothing",
    "C115_histogram_mass",
    "C115_deposit_mass",
    "C115_weights",
    "C115_images_scale",
    "C115_same_picture_refuted",
    "C115_same_twice_refuted"
   ],
   "note": "RoundSumModel.v adds up the writes of RoundModel.v in any arithmetic, with the images of numba's workers for prange reductions. C115_exact and C115_exact_parallel: with real numbers these are the images of VisModel.v (C36). Bounds in Flocq's FLX format: no overflow, no subnormal numbers; images of float32 (u = 2^-24 + 2^-53 + 2^-77) and float64. fastmath, which lets the compiler reorder sums, is not modelled. Totals: particles of the unit square without periodic copies; depositions for positions up to the last bits before the edge of the folded box (C112)."
  },
  {
   "property": "C116",
   "status": "proved",
   "theorems": [
    "C116_chunked_behind",
    "C116_chunked_undefined",
    "C116_last_row_repeated_refuted",
    "C116_negative_rows_refuted",
    "C116_mask",
    "C116_mask_refuted",
    "C116_contiguous",
    "C116_rows_behind"
   ],
   "note": "h5py is external: slices are clipped as in Python (py_slice) and read_direct wants equal numbers of rows or one row in the source, which it repeats; both empty fails with ZeroDivisionError in h5py's selections. UndefinedRead stands for a numba kernel that reads outside of its buffer (no bounds check). One axis of rows; remote files are not part of C116."
  },
  {
   "property": "C117",
   "status": "proved",
   "theorems": [
    "C117_subset_errors",
    "C117_missing_column",
    "C117_two_axes",
    "C117_unmasked",
    "C117_masked",
    "C117_masked_refuted",
    "C117_subset",
    "C117_subset_refuted"
   ],
   "note": "h5py is external: expand_shape and the blocks of SimpleSelection.broadcast are modelled on lists of lengths. In chunked datasets all ranges are taken to have rows (C117_masked, C117_subset; not needed in C117_masked_refuted). Rows are compared element by element; the shape of the array that the subset file gets is not part of the claim. Remote datasets are not part of C117."
  },
  {
   "property": "C118",
   "status": "proved",
   "theorems": [
    "C118_fast",
    "C118_histogram",
    "C118_renormalised",
    "C118_reference",
    "C118_subsampled",
    "C118_gpu",
    "C118_slice",
    "C118_volume",
    "C118_exact",
    "C118_conversions",
    "C118_lowest_bits_refuted",
    "C118_large_kernel_refuted"
   ],
   "note": "Differences and sums of 32-bit integers are taken as numba computes them, in 64 bits. The conversion is a parameter with the hypothesis keeps_outside; that x86 takes the smallest and ARM the nearest integer is not proved but written down as the definitions smallest and saturated. NaN is not converted (RoundModel's int32 covers it)."
  },
  {
   "property": "C119",
   "status": "proved",
   "theorems": [
    "C119_ranges_from_array",
    "C119_largest_refuted",
    "C119_expand",
    "C119_chunked",
    "C119_index_refuted"
   ],
   "note": "Integers are signed; numba's mixed sums of unsigned and signed integers (which become floating-point numbers) do not occur for the int64 arrays that np.where gives. numba reads out of bounds without check: UndefinedRead."
  },
  {
   "property": "C120",
   "status": "proved",
   "theorems": [
    "C120_expressions",
    "C120_other_units",
    "C120_accepted",
    "C120_comparisons",
    "C120_dimensions",
    "C120_refused",
    "C120_zeros",
    "C120_spatial",
    "C120_spatial_numbers",
    "C120_region_refused",
    "C120_property"
   ],
   "note": "What unyt does with units is written down in UnitOpModel.v, not taken from its source: operands of sums are brought to the unit of the first, zeros fit any unit, lists are brought to the unit of their first element. A unit is a size and a dimension, the algebra of dimensions is a parameter; units with offsets and logarithmic units are left out. Comparisons with plain numbers are left out. In a list the order of the unit error and the last check of the labels is that of the model."
  },
  {
   "property": "C121",
   "status": "proved",
   "theorems": [
    "C121_projections",
    "C121_subsampled",
    "C121_volumes",
    "C121_slices",
    "C121_limited",
    "C121_empty",
    "C121_negative"
   ],
   "note": "That numba raises ZeroDivisionError for a zero divisor (its default error model) and that np.zeros refuses negative lengths is written down in DivModel.v. Arithmetic is on real numbers: products that underflow to zero in 32 bits are not covered. GPU kernels, threads and the use without numba are left out."
  },
  {
   "property": "C122",
   "status": "proved",
   "theorems": [
    "C122_project",
    "C122_slice",
    "C122_voxels",
    "C122_blind",
    "C122_same_projections",
    "C122_same_slices",
    "C122_same_voxels",
    "C122_cubes_refuted",
    "C122_other_projection",
    "C122_other_slice"
   ],
   "note": "Every operation of the front ends goes through the arithmetic of CosmoModel.v; the theorems connect it to the bare numbers of FrontModel.v, to which C42, C43, C62 and C63 apply. Lengths are in one unit (C120 has units). The (n, 3) coordinates are three columns, the matrix product is written as products and sums, the in-place remainder as a remainder. The equality of projections needs a backend that ignores heights (C122_blind shows that all serial ones do). Warnings are not modelled."
  },
  {
   "property": "C123",
   "status": "proved",
   "theorems": [
    "C123_projection",
    "C123_slice",
    "C123_volume",
    "C123_empty_projection",
    "C123_empty_projection_errors",
    "C123_empty_slice",
    "C123_empty_volume",
    "C123_empty_volume_refuted",
    "C123_line",
    "C123_reversed_projection",
    "C123_reversed_slice"
   ],
   "note": "Numbers are real numbers, infinities or not a number; rounding and the sign of a zero are not modelled, so that nothing is said about the sign of an infinite voxel. The backend is an argument that may be given any such numbers. Slices are those of the backend sph; regions with both sides reversed are covered by C123_projection only."
  },
  {
   "property": "C124",
   "status": "proved",
   "theorems": [
    "C124_slice",
    "C124_none",
    "C124_part",
    "C124_outside_refuted"
   ],
   "note": "Exact real arithmetic; the tree of scipy is modelled as the search for the least distance (C59). Sizes must not be zero. Which one of several nearest particles is taken is left open by the statement. That the sizes are cube roots of the volumes is C103_nearest."
  },
  {
   "property": "C125",
   "status": "proved",
   "theorems": [
    "C125_wrap",
    "C125_again",
    "C125_again_refuted",
    "C125_normed",
    "C125_in_box",
    "C125_depth_keeps",
    "C125_depth_keeps_only",
    "C125_depth_mask",
    "C125_depth_refused",
    "C125_depth_mask_open",
    "C125_whole_depth_refuted",
    "C125_thin_depth_refuted",
    "C125_exact"
   ],
   "note": "WrapModel.v states the wrapping and the depth for any record of operations. C125_exact: with real numbers these are the functions of FrontModel.v. The positive theorems are for real numbers rounded to nearest even with 53 bits (Flocq's FLX format: no overflow, no subnormal numbers); the refutations are computed with the IEEE operations of Coq.Floats.SpecFloat. The extent and the limits of the region are given numbers; what rounding does to the later loops is C111, C112 and C115. C37-C41 and C91 take positions with the end of the box included."
  },
  {
   "property": "C126",
   "status": "proved",
   "theorems": [
    "C126_rows",
    "C126_longer_side",
    "C126_rows_slice",
    "C126_power_of_two",
    "C126_shapes",
    "C126_resolution_refuted",
    "C126_same_shape_refuted",
    "C126_exact"
   ],
   "note": "RowsModel.v gives the formulas for the numbers of pixels in any arithmetic; the theorems are about rounding to 53 bits without bounds on exponents, the refutations are computed in IEEE double precision and show a slice larger than the resolution asked for and projections and slices of the same region with different shapes. Coq's real numbers (standard axioms) are used."
  },
  {
   "property": "C127",
   "status": "proved",
   "theorems": [
    "C127_group",
    "C127_pictures",
    "C127_project",
    "C127_slice",
    "C127_render",
    "C127_masked_project",
    "C127_masked_slice",
    "C127_masked_render"
   ],
   "note": "Composition of the models of Subset, Mask, Reader, Pipe, Get and Front (C22, C23, C104). The only new definition is the list of attributes of a group; that subset files have the names and attributes of their originals is C73 and C110. The masked theorems are for subset files in which no type is empty (a file with an empty dataset is read but not subset again, C22). Positions of particles in cells are rational, pictures real; Coq's real numbers (standard axioms) are used."
  },
  {
   "property": "C128",
   "status": "proved",
   "theorems": [
    "C128_without",
    "C128_array",
    "C128_counts",
    "C128_pair",
    "C128_pair_refuted",
    "C128_reversed",
    "C128_wrong_number",
    "C128_equal_ends_refuted",
    "C128_edges_win"
   ],
   "note": "HrangeModel.v adds the keyword range to the histogram of C69; the refutations show that a range given as a pair is taken in the frame of the data and that a range without width is widened by a unit of that frame. Ranges of plain numbers are left out. Coq's real numbers (standard axioms) are used."
  },
  {
   "property": "C129",
   "status": "proved",
   "theorems": [
    "C129_flags",
    "C129_cuda",
    "C129_substitutes",
    "C129_threads",
    "C129_tree",
    "C129_gpu",
    "C129_gpu_checked",
    "C129_plt",
    "C129_cosmology",
    "C129_progress",
    "C129_objects",
    "C129_import"
   ],
   "note": "PackModel.v is optional_packages.py as a function of what can be imported, with the checks made by its users. What the packages themselves compute is left out."
  },
  {
   "property": "C130",
   "status": "proved",
   "theorems": [
    "C130_str",
    "C130_array2string",
    "C130_join",
    "C130_dataset",
    "C130_dataset_case",
    "C130_no_groups_refuted",
    "C130_mapping",
    "C130_numbers",
    "C130_columns",
    "C130_columns_refuted"
   ],
   "note": "PrintModel.v has the texts; unyt's text of an array and Python's text of a list are arguments. The refutations show equal fields with named columns of different groups."
  },
  {
   "property": "C131",
   "status": "proved",
   "theorems": [
    "C131_without",
    "C131_counts_array",
    "C131_counts",
    "C131_two_axes_density",
    "C131_many_axes_density",
    "C131_many_axes_density_refuted",
    "C131_bin_edges",
    "C131_bad_range"
   ],
   "note": "HaxesModel.v adds the keyword range to the histograms of several axes and to histogram_bin_edges of C69. Ranges of plain numbers and bins named by a string are left out. Coq's real numbers (standard axioms) are used."
  },
  {
   "property": "C132",
   "status": "proved",
   "theorems": [
    "C132_padded_complete",
    "C132_docstring_refuted"
   ],
   "note": "Follows from C07 and C90: from the names in the file and the argument safe_padding to the rows under the name of the group. The refutation concerns the docstring of swiftsimio.mask; docs/source/masking/index.rst says a tenth."
  },
  {
   "property": "C133",
   "status": "proved",
   "theorems": [
    "C133_projection",
    "C133_slice",
    "C133_projection_single",
    "C133_nonnegative",
    "C133_support",
    "C133_edge_refuted"
   ],
   "note": "Numbers have 53 bits and no limits of the exponent (no underflow); the arguments of kernel_single_precision are given, their conversion to single precision by numba's signature is not part of it. numba's fastmath may reorder the operations; the bound is for the order of the source. The edge is computed with IEEE doubles."
  },
  {
   "property": "C134",
   "status": "proved",
   "theorems": [
    "C134_same_rows",
    "C134_wider",
    "C134_cut",
    "C134_slab",
    "C134_everything"
   ],
   "note": "Derived from the exact set of cells of C08 and the union of C11. The example of the documentation that passes safe_padding to constrain_spatial cannot run: the method has no such parameter (it belongs to swiftsimio.mask); Python's check of parameters is not modelled."
  },
  {
   "property": "C135",
   "status": "proved",
   "theorems": [
    "C135_combination",
    "C135_failures",
    "C135_order",
    "C135_mean",
    "C135_backends_linear",
    "C135_backends_average",
    "C135_mean_parallel",
    "C135_project",
    "C135_slice",
    "C135_volume",
    "C135_temperature_map",
    "C135_nearest",
    "C135_nearest_values"
   ],
   "note": "With exact real numbers. Both pictures are of quantities that are in the same frame (comoving or physical); division by a zero normalisation is Coq's total division, which C121 treats separately. The parallel and GPU functions come in through C36."
  },
  {
   "property": "C136",
   "status": "proved",
   "theorems": [
    "C136_quotient",
    "C136_parallel",
    "C136_bounds",
    "C136_backends",
    "C136_constant_refuted"
   ],
   "note": "Numbers are rounded to 53 bits (and to 24 in images of single precision) without bounds on the exponent, in the order of the source; the quotient itself is exact (its rounding is one more factor). The GPU function is not included: it has atomic additions in any order."
  },
  {
   "property": "C137",
   "status": "proved",
   "theorems": [
    "C137_turned",
    "C137_rotation",
    "C137_distance",
    "C137_back",
    "C137_centre",
    "C137_identity",
    "C137_identity_refuted",
    "C137_depth",
    "C137_exact"
   ],
   "note": "Numbers are rounded to 53 bits without bounds on the exponent; np.matmul adds three products in an order that is an argument of the model, without fused multiplications. The error of rotation_matrix_from_vector itself is an hypothesis (e), its exact value is C45."
  },
  {
   "property": "C138",
   "status": "proved",
   "theorems": [
    "C138_form",
    "C138_unlabelled",
    "C138_tells",
    "C138_labels"
   ],
   "note": "unyt's text and the text of a factor are arguments; texts are ASCII. Coercion of the arguments of array_repr is left out: there is one array."
  },
  {
   "property": "C139",
   "status": "proved",
   "theorems": [
    "C139_same",
    "C139_strict",
    "C139_union",
    "C139_intersection_refuted"
   ],
   "note": "On the model of masks of C06-C13 (rational numbers). The decorator passes the arguments on; which warnings are shown is up to Python's filters, of which the one that raises is included."
  },
  {
   "property": "C140",
   "status": "proved",
   "theorems": [
    "C140_grid",
    "C140_slice",
    "C140_spatial",
    "C140_empty",
    "C140_no_margin_refuted"
   ],
   "note": "Composes the models of masks, reader, picture functions and the nearest-neighbour backend (C07, C19, C103, C124). Groups with the field volumes; real numbers. The spatial theorem is for periodic pictures without rotation, the one for given masks also for others."
  },
  {
   "property": "C141",
   "status": "proved",
   "theorems": [
    "C141_matrix",
    "C141_rotated",
    "C141_aim",
    "C141_arccos",
    "C141_unit",
    "C141_sine",
    "C141_unknown_axis",
    "C141_exact",
    "C141_scale",
    "C141_long_refuted",
    "C141_short"
   ],
   "note": "Up to the skew matrix and the cosine; np.arccos, np.sin and np.linalg.inv are not rounded here, so C141_matrix and C141_rotated are about the exact inverse of the matrix of the rounded directions. Without rounding it is proved to be the model of C45. Exponents are without limits except in C141_long_refuted and C141_short, which are computed with IEEE doubles."
  },
  {
   "property": "C142",
   "status": "proved",
   "theorems": [
    "C142_columns",
    "C142_numbers",
    "C142_bounds",
    "C142_refused",
    "C142_unknown",
    "C142_all_particles_refuted"
   ],
   "note": "numpy's broadcasting of one axis, its refusal of lists of arrays of different lengths (1.24 and later) and of values with more than one axis assigned through a boolean mask are written down in BoundModel.v. Bounds with two or more axes are not in the model. Numbers are in one frame and unit (C100, C120)."
  },
  {
   "property": "C143",
   "status": "proved",
   "theorems": [
    "C143_value",
    "C143_copy",
    "C143_wide",
    "C143_image",
    "C143_periodic",
    "C143_case",
    "C143_periodic_case",
    "C143_parallel",
    "C143_narrow",
    "C143_narrow_case",
    "C143_compiled_exact",
    "C143_compiled",
    "C143_compiled_image",
    "C143_gpu",
    "C143_gpu_periodic",
    "C143_launch",
    "C143_launch_case",
    "C143_gpu_case"
   ],
   "note": "Exponents have no limits here (no overflow or underflow). C143_image compares with copies at the positions computed for them, C143_periodic with their exact positions. Kernels not wider than a pixel are added to one pixel in full (C143_narrow) and are not compared with the kernel. Only the fast backend and the GPU's loop; fused multiplications and other fastmath changes are not modelled. The C143_compiled theorems and C143_gpu have what numba's signatures and arrays of single precision narrow; C143_value to C143_periodic, C143_parallel and C143_narrow do not (masses and smoothing lengths of double precision, no signature). Literals such as 1.0 are of double precision, as for numba; the interpreted functions with NumPy 2, where they take the precision of the other operand, are not modelled. C143_parallel is for the images of several threads added in any grouping, C143_gpu for GPU threads in any order, compared with copies at the positions computed for them, C143_gpu_periodic with their exact positions."
  },
  {
   "property": "C144",
   "status": "proved",
   "theorems": [
    "C144_slice_parallel",
    "C144_volume_parallel",
    "C144_slice",
    "C144_voxel",
    "C144_slice_image",
    "C144_volume_image",
    "C144_limited_image",
    "C144_case"
   ],
   "note": "Exponents have no limits here (no overflow or underflow) and the integers do not wrap, which bounds of 2^30 pixels allow. Fused multiplications and other fastmath changes are not modelled. C144_slice_parallel and C144_volume_parallel are for several threads. Literals are of double precision, as for numba (see C143)."
  }
 ]
}