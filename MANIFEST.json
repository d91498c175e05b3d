{
 "claims": [
  {
   "property": "C01",
   "status": "proved",
   "theorems": [
    "C01_volume_counts_cells",
    "C01_cells_enumerable",
    "C01_volume_is_extent_product",
    "C01_central_cell_inside",
    "C01_cell_in_box_meaning",
    "C01_valid_box_meaning"
   ],
   "note": ""
  },
  {
   "property": "C02",
   "status": "proved",
   "theorems": [
    "C02_local_then_parent",
    "C02_none_iff_outside",
    "C02_parent_then_local"
   ],
   "note": ""
  },
  {
   "property": "C03",
   "status": "proved",
   "theorems": [
    "C03_overlap_iff_common_cell",
    "C03_overlap_symmetric"
   ],
   "note": ""
  },
  {
   "property": "C04",
   "status": "proved",
   "theorems": [
    "C04_union_contains_both",
    "C04_union_is_least",
    "C04_union_none",
    "C04_union_commutative",
    "C04_union_associative",
    "C04_union_idempotent"
   ],
   "note": ""
  },
  {
   "property": "C05",
   "status": "proved",
   "theorems": [
    "C05_trim_to_mask",
    "C05_empty_mask_rejected"
   ],
   "note": ""
  },
  {
   "property": "C06",
   "status": "partial",
   "theorems": [
    "C06_chosen_slab_is_cheapest",
    "C06_no_overlap_zeroes_trim_box",
    "C06_trimming_removes_overlap_partial",
    "C06_trim_box_leaves_valid_box_refuted"
   ],
   "note": "Trimming removes the overlap when one box's overlap touches exactly one face (partial); the unconditional claim is refuted by a witness."
  },
  {
   "property": "C07",
   "status": "proved",
   "theorems": [
    "C07_box_text_roundtrip",
    "C07_inverted_box_rejected"
   ],
   "note": ""
  },
  {
   "property": "C08",
   "status": "proved",
   "theorems": [
    "C08_fine_cells_partitioned",
    "C08_constructor_accepts",
    "C08_coarse_cells_own_fine_cells",
    "C08_mapping_non_decreasing"
   ],
   "note": ""
  },
  {
   "property": "C09",
   "status": "proved",
   "theorems": [
    "C09_constant_ratio_accepted_iff",
    "C09_constant_ratio_result",
    "C09_ratio_vector_accepted_iff",
    "C09_ratio_returns_supplied_entries"
   ],
   "note": ""
  },
  {
   "property": "C10",
   "status": "partial",
   "theorems": [
    "C10_proportions_sum_to_one",
    "C10_given_proportions_are_normalised",
    "C10_axis_proportions_are_concatenation",
    "C10_interpolation_monotone_below_one",
    "C10_proportions_follow_ratios_refuted"
   ],
   "note": "Real (rational) arithmetic. Proved for proportions set on the current ratios; refuted theorem shows the ratio setters leave stale proportions behind."
  },
  {
   "property": "C11",
   "status": "partial",
   "theorems": [
    "C11_answers_current_if_setters_precede_queries_partial",
    "C11_answers_current_refuted"
   ],
   "note": "Holds when no query precedes a setter; refuted in general because setters do not clear the cached mapping."
  },
  {
   "property": "C12",
   "status": "proved",
   "theorems": [
    "C12_natural_column_index",
    "C12_natural_pillar_index",
    "C12_natural_column_increasing"
   ],
   "note": ""
  },
  {
   "property": "C13",
   "status": "partial",
   "theorems": [
    "C13_tartan_explicit_rates",
    "C13_tartan_default_linear",
    "C13_tartan_exponential_two_sided_partial",
    "C13_around_is_nearest"
   ],
   "note": "Explicit rates and default linear rates proved in full. Default exponential rates are irrational powers: proved for any two-sided rates whose boundary factor stays at or above one."
  },
  {
   "property": "C14",
   "status": "proved",
   "theorems": [
    "C14_string_round_trip",
    "C14_string_shape",
    "C14_int_round_trip",
    "C14_out_of_range_int_rejected",
    "C14_bytes_round_trip",
    "C14_short_strings_give_none",
    "C14_part_name_round_trip",
    "C14_rels_part_name_round_trip",
    "C14_part_names_distinct",
    "C14_test_mode_uuids_distinct",
    "C14_is_uuid_means_parsable_refuted"
   ],
   "note": "Proved as stated. Separate finding (refuted theorem, not part of the statement): is_uuid only checks the string length, so it does not mean the string can be parsed."
  },
  {
   "property": "C15",
   "status": "proved",
   "theorems": [
    "C15_matching_iff_same_value",
    "C15_representations_denote",
    "C15_matching_symmetric",
    "C15_matching_transitive",
    "C15_none_never_matches",
    "C15_in_list_iff"
   ],
   "note": ""
  },
  {
   "property": "C16",
   "status": "partial",
   "theorems": [
    "C16_following_terminates_partial",
    "C16_map_integrity_partial",
    "C16_equivalence_remembered",
    "C16_mapping_is_sound",
    "C16_map_integrity_refuted",
    "C16_following_terminates_refuted"
   ],
   "note": "Termination and integrity are proved for documented histories (ignore_identical_part False, forced targets resident, resident model only gains parts; integrity also needs forced targets not to be mapped themselves). Outside those hypotheses both are refuted with witnesses."
  },
  {
   "property": "C17",
   "status": "proved",
   "theorems": [
    "C17_sorted_list_is_permutation",
    "C17_sorted_by_class_order",
    "C17_sort_is_canonical",
    "C17_listed_classes_first"
   ],
   "note": ""
  },
  {
   "property": "C18",
   "status": "partial",
   "theorems": [
    "C18_catalogue_consistent_partial",
    "C18_added_part_is_found",
    "C18_parts_persist",
    "C18_roots_carry_their_uuid",
    "C18_catalogue_consistent_refuted"
   ],
   "note": "Proved for histories that do not add a second part with a uuid already in use; refuted in general (such an addition leaves the older part uncatalogued)."
  },
  {
   "property": "C19",
   "status": "partial",
   "theorems": [
    "C19_references_symmetric",
    "C19_soft_relations_mutual_partial",
    "C19_relatedness_symmetric_partial",
    "C19_no_dangling_after_removal_partial",
    "C19_relations_mirror_xml",
    "C19_soft_relations_mutual_refuted",
    "C19_no_dangling_after_removal_refuted",
    "C19_relations_mirror_xml_refuted",
    "C19_references_symmetric_refuted"
   ],
   "note": "Mutual references proved for all histories; soft relations, relatedness and absence of dangling entries proved when relationships are only created between different parts already taking part in a relationship. Refuted in general with witnesses."
  },
  {
   "property": "C20",
   "status": "partial",
   "theorems": [
    "C20_parts_are_exactly_the_matches",
    "C20_default_list_is_valid",
    "C20_narrowing_never_adds",
    "C20_criteria_compose",
    "C20_sorting_keeps_the_parts",
    "C20_part_picks_newest_or_oldest",
    "C20_part_default_is_unique",
    "C20_uuids_match_parts",
    "C20_epc_subdir_refuted",
    "C20_related_without_rels_refuted",
    "C20_count_by_type"
   ],
   "note": "Proved for the criteria other than epc_subdir and related_uuid on parts without relationship entries, which are refuted with witnesses."
  },
  {
   "property": "C21",
   "status": "partial",
   "theorems": [
    "C21_result_within_list_partial",
    "C21_empty_list_means_all",
    "C21_empty_list_stays_empty_refuted"
   ],
   "note": "Refuted as expected: an empty list is treated as all parts. The theorem for non-empty lists is proved."
  },
  {
   "property": "C22",
   "status": "partial",
   "theorems": [
    "C22_removal_is_complete",
    "C22_removal_succeeds_partial",
    "C22_removal_is_atomic_refuted"
   ],
   "note": "Removal proved to succeed and be complete for consistent catalogues; atomicity refuted: an exception part way leaves a half removed part."
  },
  {
   "property": "C23",
   "status": "partial",
   "theorems": [
    "C23_stamps_never_go_back",
    "C23_stamps_strictly_increase",
    "C23_append_accepts",
    "C23_insert_adds_one",
    "C23_extend_adds_the_shifted_stamp",
    "C23_index_is_first_match",
    "C23_index_inverts_timestamp",
    "C23_negative_index",
    "C23_zero_duration_refuted",
    "C23_reinsertion_refuted",
    "C23_fraction_refuted"
   ],
   "note": "Proved for all histories: weak order for tidy stamps, strict order for canonical stamps with positive durations and new insertions. Refuted in general: zero durations and repeated insertions give equal stamps, a stamp with a fraction of a second is compared wrongly as text."
  },
  {
   "property": "C24",
   "status": "partial",
   "theorems": [
    "C24_not_later_than",
    "C24_not_earlier_than",
    "C24_closest_to_partial",
    "C24_closest_to_refuted",
    "C24_mixed_form_refuted"
   ],
   "note": "not_later_than and not_earlier_than proved for canonical stamps. closest_to proved except when the query is between the first two stamps, where it always returns 0 (refuted). Date-only and midnight stamps of the same day are looked up as different (refuted)."
  },
  {
   "property": "C25",
   "status": "proved",
   "theorems": [
    "C25_factorize_correct",
    "C25_factorize_deterministic",
    "C25_all_factors_exact",
    "C25_from_primes_any_order",
    "C25_remove_subset"
   ],
   "note": ""
  },
  {
   "property": "C26",
   "status": "proved",
   "theorems": [
    "C26_get_string_exact",
    "C26_index_inverts",
    "C26_round_trip",
    "C26_reload_same_answers",
    "C26_set_string_refuted",
    "C26_set_string_then_get_refuted",
    "C26_length_refuted"
   ],
   "note": "Proved as stated. Separate findings (refuted theorems): set_string on the list storage may lose the string, and the reported length counts unused indices."
  },
  {
   "property": "C27",
   "status": "proved",
   "theorems": [
    "C27_integers",
    "C27_booleans",
    "C27_reals",
    "C27_without_keyword",
    "C27_integers_without_keyword",
    "C27_missing_keyword_refuted",
    "C27_repeated_keyword_refuted",
    "C27_comments_among_data"
   ],
   "note": "Text part, exact rationals for reals; a missing keyword is not reported (the data at the start of the file are returned), and a repeated keyword finds the first array: both recorded as refuted side claims. nan, the binary file and data_free_of_comments are not modelled."
  },
  {
   "property": "C28",
   "status": "proved",
   "theorems": [
    "C28_four_mode_exchanges",
    "C28_four_mode_twice",
    "C28_eight_mode_meaning",
    "C28_eight_mode_undo",
    "C28_within_cells"
   ],
   "note": "For arrays of any extent and element type."
  },
  {
   "property": "C29",
   "status": "partial",
   "theorems": [
    "C29_steps_to_marked_faces",
    "C29_steps_to_split_faces_partial",
    "C29_missed_face_refuted"
   ],
   "note": "Proved with respect to the faces marked by split_column_faces, including that the loop ends; with respect to the truly split faces only when no mark is missed (see C43)."
  },
  {
   "property": "C30",
   "status": "partial",
   "theorems": [
    "C30_active_cells_kept_partial",
    "C30_cells_above_the_first_active",
    "C30_voids_are_shared_partial",
    "C30_shared_voids_abut",
    "C30_snapping_flattens_the_column",
    "C30_snapping_moves_active_cells_refuted",
    "C30_nudging_refuted"
   ],
   "note": "False with the default snap option: every cell above the deepest active one is moved to that cell's top (proved in general). Overlaps within tolerance raise TypeError instead of being nudged. Proved without snapping: active cells are kept and voids are shared equally without gaps."
  },
  {
   "property": "C31",
   "status": "proved",
   "theorems": [
    "C31_round_trips",
    "C31_position",
    "C31_angle",
    "C31_arrays_point_by_point",
    "C31_conversion_keeps_the_place",
    "C31_conversion_round_trip",
    "C31_by_way_of_another",
    "C31_time_and_depth_do_not_mix",
    "C31_array_conversion",
    "C31_handedness",
    "C31_switching_axes_partial",
    "C31_switching_axes_back",
    "C31_global_axis_order_refuted"
   ],
   "note": "Real arithmetic with the standard library's sin, cos and PI; unit tables as in C56. Besides the round trips: the place on the map is that given by an independent description of axis orders, offsets and clockwise rotation. Separate findings: switch_axes multiplies its matrices in the wrong order and is wrong for ten pairs of axis orders (exact list in C31_switching_axes_partial)."
  },
  {
   "property": "C32",
   "status": "partial",
   "theorems": [
    "C32_symmetric",
    "C32_reflexive",
    "C32_same_rotation_partial",
    "C32_tolerance",
    "C32_equal_settings",
    "C32_rotation_units_refuted",
    "C32_not_transitive_refuted"
   ],
   "note": "False as stated: rotation units are ignored (half a revolution is equivalent to half a degree), so convert_to moves points that convert_array_to leaves. Proved when the rotations agree. Also not transitive."
  },
  {
   "property": "C33",
   "status": "proved",
   "theorems": [
    "C33_crossing_is_parity_of_winding",
    "C33_inside_by_crossing_is_inside_by_winding",
    "C33_tests_differ_for_self_crossing_refuted",
    "C33_tests_agree_when_simply_wound",
    "C33_start_vertex_is_immaterial",
    "C33_direction_is_immaterial",
    "C33_array_is_pointwise",
    "C33_separated_points_are_outside",
    "C33_enclosed_points_are_inside",
    "C33_convex_cells",
    "C33_winding_adds_up_triangles",
    "C33_triangle_is_exact"
   ],
   "note": "Rational arithmetic. Proved as stated. Separate finding (refuted theorem): for a self crossing polygon with winding number two the two inclusion tests differ."
  },
  {
   "property": "C34",
   "status": "partial",
   "theorems": [
    "C34_centre_is_immaterial",
    "C34_volume_and_twist",
    "C34_planar_faces_are_exact",
    "C34_twisted_faces_refuted",
    "C34_parallelepiped",
    "C34_box",
    "C34_translation",
    "C34_linear_map",
    "C34_scales_cubically",
    "C34_off_hand_negates",
    "C34_reversed_axis_planar_faces",
    "C34_reversed_axis_refuted",
    "C34_swapped_axes",
    "C34_parts_add_up_planar_faces",
    "C34_parts_add_up_refuted",
    "C34_array_is_cell_by_cell",
    "C34_pyramid_volume_is_swept_out",
    "C34_pyramids_make_up_the_cell",
    "C34_pyramid_start_is_immaterial",
    "C34_tetrahedron"
   ],
   "note": "Rational arithmetic. The returned volume is the true one plus a sixth of the twists of the six faces, so it is exact for planar faces; refuted: with twisted faces the volume is wrong (60000 reported as 93333), depends on the direction of numbering and does not add up when the cell is cut. pyramid_volume is right and disagrees."
  },
  {
   "property": "C35",
   "status": "proved",
   "theorems": [
    "C35_at_most_one_open",
    "C35_access_returns_what_was_asked",
    "C35_access_and_file_contents",
    "C35_release_leaves_none_open",
    "C35_existing_file_can_be_read",
    "C35_second_new_file_refused_refuted"
   ],
   "note": "Proved as stated for all histories of access, release, write and outside changes. Separate finding (refuted theorem): a second new file requested in the same write mode while one is open raises FileNotFoundError."
  },
  {
   "property": "C36",
   "status": "proved",
   "theorems": [
    "C36_packed_round_trip",
    "C36_packed_layout",
    "C36_plain_booleans_round_trip",
    "C36_plain_booleans_reshaped_refuted",
    "C36_packed_byte_dtype_refuted",
    "C36_packed_byte_dtype"
   ],
   "note": "Proved as stated for every shape. Separate findings (refuted theorems): a plain boolean array read with another shape can be taken for a packed one; packed data of last extent one read with dtype uint8 give 128."
  },
  {
   "property": "C37",
   "status": "proved",
   "theorems": [
    "C37_reshaped_index",
    "C37_direct_and_cached_reads_agree",
    "C37_incompatible_trailing_axes_refused",
    "C37_out_of_range_index_refuted"
   ],
   "note": "Proved as stated for all in-range indices. Separate finding (refuted theorem): an out-of-range index may return another element instead of raising IndexError."
  },
  {
   "property": "C38",
   "status": "proved",
   "theorems": [
    "C38_text_round_trip"
   ],
   "note": ""
  },
  {
   "property": "C39",
   "status": "proved",
   "theorems": [
    "C39_binary_search"
   ],
   "note": ""
  },
  {
   "property": "C40",
   "status": "proved",
   "theorems": [
    "C40_match_is_prefix_stripping",
    "C40_colon_in_local_part_refuted",
    "C40_searches_agree",
    "C40_nested_search",
    "C40_references_are_the_outermost",
    "C40_node_type"
   ],
   "note": "Proved as stated. Separate finding (refuted theorem): a local name that itself contains a colon is cut."
  },
  {
   "property": "C41",
   "status": "proved",
   "theorems": [
    "C41_batches_partition_the_list",
    "C41_batches_are_balanced",
    "C41_sizes_differ_by_at_most_one",
    "C41_each_item_once",
    "C41_no_workers_loses_the_work_refuted",
    "C41_same_wells_for_any_number_of_workers",
    "C41_same_meshes_for_any_number_of_workers"
   ],
   "note": "Proved as stated. Separate finding (refuted theorem): a worker count of zero or less silently processes nothing."
  },
  {
   "property": "C42",
   "status": "proved",
   "theorems": [
    "C42_order_of_arrival_is_immaterial",
    "C42_success_list_is_in_call_order",
    "C42_merge_is_serial_and_complete",
    "C42_plan_is_complete",
    "C42_delays_are_immaterial",
    "C42_require_success",
    "C42_failure_stores_nothing",
    "C42_missing_epc_is_noticed",
    "C42_clean_up_on_failure_refuted"
   ],
   "note": "Proved as stated. Separate finding (refuted theorem): the temporary directory is left behind when a worker fails, although clean up is the default."
  },
  {
   "property": "C43",
   "status": "partial",
   "theorems": [
    "C43_face_test",
    "C43_marked_faces_partial",
    "C43_last_column_refuted"
   ],
   "note": "The test of single faces is proved correct; split_column_faces misses a split face in the last row or column when only its inner end is at a split pillar; exactly these are missed."
  },
  {
   "property": "C44",
   "status": "proved",
   "theorems": [
    "C44_document_round_trip",
    "C44_what_is_seen_is_preserved",
    "C44_type_is_preserved",
    "C44_attribute_values_refuted",
    "C44_attribute_entities_refuted",
    "C44_two_attributes_one_namespace_refuted",
    "C44_unknown_namespace_refuted",
    "C44_unknown_type_prefix_refuted",
    "C44_blank_title_refuted"
   ],
   "note": "Proved as stated. Separate findings (refuted theorems): what happens outside the stated scope (attribute values with special characters, unknown namespaces, blank titles)."
  },
  {
   "property": "C45",
   "status": "proved",
   "theorems": [
    "C45_handedness_is_geometric",
    "C45_allowed_axes_are_known"
   ],
   "note": ""
  },
  {
   "property": "C46",
   "status": "proved",
   "theorems": [
    "C46_after_is_exact",
    "C46_before_is_exact",
    "C46_before_undoes_after",
    "C46_duration_connects",
    "C46_steps_add_up",
    "C46_durations_not_negative",
    "C46_constructor_steps"
   ],
   "note": ""
  },
  {
   "property": "C47",
   "status": "partial",
   "theorems": [
    "C47_cleaned_keeps_moment",
    "C47_cleaned_drops_fraction",
    "C47_series_from_list",
    "C47_same_second_refuted",
    "C47_merge_is_union",
    "C47_selection",
    "C47_negative_selection_refuted"
   ],
   "note": "Proved for stamps in whole seconds and non-negative indices; refuted for two stamps within one second and for negative indices."
  },
  {
   "property": "C48",
   "status": "proved",
   "theorems": [
    "C48_years_sorted_oldest_first",
    "C48_order_and_sign_do_not_matter",
    "C48_index_for_year",
    "C48_text_lookup_refuted"
   ],
   "note": "Proved as stated. Separate finding (refuted theorem): lookup by text is not unique because the text form is not injective. The three-decimal text uses exact rounding, see TimeModel.v."
  },
  {
   "property": "C49",
   "status": "proved",
   "theorems": [
    "C49_equivalence_is_symmetric",
    "C49_equivalence_criterion",
    "C49_transitivity_refuted"
   ],
   "note": "Proved as stated; the refuted theorem shows that the test is not transitive."
  },
  {
   "property": "C50",
   "status": "proved",
   "theorems": [
    "C50_registered_arrays_are_written",
    "C50_other_datasets_unchanged",
    "C50_objects_never_clash",
    "C50_fresh_file_write_succeeds",
    "C50_large_integers_refuted",
    "C50_internal_path_not_forgotten_refuted",
    "C50_retry_after_failure_refuted",
    "C50_write_releases_as_asked",
    "C50_write_reaches_the_file"
   ],
   "note": "Proved as stated. Separate findings (refuted theorems): int64 values outside the 32 bit range are changed silently; an internal path given once sticks to the name; a failed write leaves the file open so that a retry in mode 'w' fails too."
  },
  {
   "property": "C51",
   "status": "proved",
   "theorems": [
    "C51_copy_takes_selected_groups",
    "C51_selection_by_uuid",
    "C51_all_datasets_copied_refuted",
    "C51_failed_copy_keeps_output_refuted",
    "C51_copy_by_path"
   ],
   "note": "Proved as stated. Separate findings (refuted theorems): datasets outside the RESQML group are not copied although the documentation says all are; a failing copy in mode 'w' has already emptied the output."
  },
  {
   "property": "C52",
   "status": "proved",
   "theorems": [
    "C52_full_override",
    "C52_dir_override",
    "C52_no_override",
    "C52_name_kept_for_uuid",
    "C52_override_honoured_refuted",
    "C52_file_from_relationships",
    "C52_found_name_is_remembered"
   ],
   "note": "Proved as stated. Separate finding (refuted theorem): an override given on a later request for a cached uuid is ignored."
  },
  {
   "property": "C53",
   "status": "proved",
   "theorems": [
    "C53_change_uuid_moves_arrays",
    "C53_change_uuid_fails_iff",
    "C53_change_uuid_inverse"
   ],
   "note": ""
  },
  {
   "property": "C54",
   "status": "proved",
   "theorems": [
    "C54_shape",
    "C54_convex_cells_are_scanned_exactly",
    "C54_scan_agrees_with_crossing_test",
    "C54_rows_with_two_crossings",
    "C54_rows_without_crossings",
    "C54_cells_to_the_left_lose_points_refuted",
    "C54_cells_to_the_left_gain_points_refuted",
    "C54_more_than_two_crossings_refuted"
   ],
   "note": "Rational arithmetic. Proved as stated. Separate findings (refuted theorems): outlines beginning left of the lattice lose and gain points; rows crossed more than twice use only the first two crossings."
  },
  {
   "property": "C55",
   "status": "partial",
   "theorems": [
    "C55_mapped_cell_holds_the_pixel_centre",
    "C55_pixels_inside_cells_are_mapped",
    "C55_other_pixels_are_null",
    "C55_cells_near_the_edge_gain_pixels_refuted",
    "C55_cells_near_the_edge_are_dropped_refuted"
   ],
   "note": "Exact for cells with half a pixel of margin inside the map. Refuted: cells near the edge gain pixels or are dropped."
  },
  {
   "property": "C56",
   "status": "proved",
   "theorems": [
    "C56_base_value_is_kept",
    "C56_round_trip",
    "C56_by_way_of_another_unit",
    "C56_in_place_agrees",
    "C56_when_possible",
    "C56_offsets",
    "C56_strictly_increasing",
    "C56_units_of_a_quantity",
    "C56_lengths_and_times",
    "C56_transmissibility_parts",
    "C56_transmissibility_value",
    "C56_transmissibility_round_trip",
    "C56_transmissibility_volume_with_dot_refuted"
   ],
   "note": "Rational arithmetic; the factor tables are generated from the json data by tools/gen_wam.py. Proved as stated. Separate finding (refuted theorem): transmissibility units whose volume unit has a '.' (acre.ft) are rejected."
  },
  {
   "property": "C57",
   "status": "proved",
   "theorems": [
    "C57_result_is_a_valid_unit",
    "C57_valid_units_unchanged",
    "C57_valid_units_of_a_quantity_unchanged",
    "C57_idempotent",
    "C57_quantity_members",
    "C57_white_space",
    "C57_aliases",
    "C57_aliases_any_case",
    "C57_ratio",
    "C57_simulator_units"
   ],
   "note": "The recursion of the parser runs on fuel shown sufficient (parse_fuel). lower/upper act on ASCII."
  },
  {
   "property": "C58",
   "status": "proved",
   "theorems": [
    "C58_stored_values",
    "C58_exact_when_few_decimals",
    "C58_storing_again_changes_nothing",
    "C58_position_moves_little",
    "C58_stored_is_equivalent_refuted"
   ],
   "note": "The decimal text itself is not modelled, only its value. Separate finding: offsets are rounded to 3 decimals but equivalence asks for 1e-4, so a reloaded crs may not be equivalent to the settings it was made from."
  },
  {
   "property": "C59",
   "status": "proved",
   "theorems": [
    "C59_columns_use_the_right_pillars",
    "C59_unfaulted_columns",
    "C59_unsplit_pillars_are_shared",
    "C59_pillar_numbers_tell_positions",
    "C59_foursome_agrees_with_the_mapping"
   ],
   "note": "Caching of the result on the grid is not modelled."
  },
  {
   "property": "C60",
   "status": "proved",
   "theorems": [
    "C60_translation",
    "C60_preserved_digits"
   ],
   "note": "One coordinate at a time, over exact rationals."
  },
  {
   "property": "C61",
   "status": "partial",
   "theorems": [
    "C61_find_keyword",
    "C61_without_passing",
    "C61_copying",
    "C61_pair",
    "C61_skipping",
    "C61_keyword_next",
    "C61_trailing_comment_partial",
    "C61_no_comment",
    "C61_short_comment_refuted"
   ],
   "note": "split_trailing_comment loses comments of one character; all else proved."
  },
  {
   "property": "C62",
   "status": "proved",
   "theorems": [
    "C62_in_triangle",
    "C62_clockwise_order_loses_points_refuted",
    "C62_points_in_triangles",
    "C62_flat_triangle_takes_line_refuted",
    "C62_negative_index_refuted"
   ],
   "note": "Exact rationals. Refuted side claims: in_triangle on clockwise corners, flat triangles with edged=True (the whole line counts as inside), corners given by negative indices."
  },
  {
   "property": "C63",
   "status": "proved",
   "theorems": [
    "C63_in_circumcircle",
    "C63_circle_exists",
    "C63_flip_is_symmetric"
   ],
   "note": "Exact rationals."
  },
  {
   "property": "C64",
   "status": "proved",
   "theorems": [
    "C64_polygon",
    "C64_triangle",
    "C64_triangles_of_polygon",
    "C64_shared_edge",
    "C64_outside_box",
    "C64_points_in_polygon",
    "C64_points_in_polygons",
    "C64_points_in_triangles",
    "C64_aligned"
   ],
   "note": "Exact rationals; numba's parallel loops write each element once."
  },
  {
   "property": "C65",
   "status": "partial",
   "theorems": [
    "C65_batches_are_immaterial",
    "C65_rows_are_in_the_triangles",
    "C65_all_points_found",
    "C65_edge_on_triangle_loses_points_refuted",
    "C65_no_batches_refuted",
    "C65_unified"
   ],
   "note": "Exact rationals. Refuted: a triangle whose corners share one x loses points beyond its first two corners; zero batches raise and a negative number of batches silently finds nothing."
  },
  {
   "property": "C66",
   "status": "proved",
   "theorems": [
    "C66_bisector_from_faces",
    "C66_leaky_faces",
    "C66_bisector_from_face_indices",
    "C66_leaky_indices",
    "C66_empty_index_array_refuted",
    "C66_shallow_side_of_faces",
    "C66_shallow_side_of_indices"
   ],
   "note": "Refuted side claim: an index array without rows (rather than None) for one axis stops the function with a ValueError, although the caller allows for such arrays."
  },
  {
   "property": "C67",
   "status": "proved",
   "theorems": [
    "C67_column_bisector",
    "C67_face_shapes",
    "C67_column_bisector_from_indices"
   ],
   "note": "Indices are taken to lie within the arrays of faces."
  },
  {
   "property": "C68",
   "status": "proved",
   "theorems": [
    "C68_shadow_from_faces",
    "C68_shadow_from_face_indices"
   ],
   "note": "The array is held by columns; indices are taken to lie within the array of faces."
  },
  {
   "property": "C69",
   "status": "partial",
   "theorems": [
    "C69_one_connection_per_marked_face",
    "C69_one_connection_per_listed_face",
    "C69_properties_follow_faces_partial",
    "C69_properties_follow_faces_refuted",
    "C69_skin_separates_inside_from_outside",
    "C69_feature_of_cell_face",
    "C69_kelp_of_masks",
    "C69_kelp_round_trip",
    "C69_rework_faces"
   ],
   "note": "Refuted part: property arrays are not reordered when the list of faces has no repeats but is not in increasing order. Partial theorem: they follow otherwise. Floating point values are not involved; feature indices are integers without a limit."
  },
  {
   "property": "C70",
   "status": "partial",
   "theorems": [
    "C70_face_values",
    "C70_face_values_of_masks",
    "C70_null_side_refuted",
    "C70_combined_multipliers",
    "C70_combination_succeeds",
    "C70_combination_order_free"
   ],
   "note": "Refuted side claim: a connection with a null side (-1) also writes to an unrelated face. Multipliers are rationals; NaN is the absence of a value."
  },
  {
   "property": "C71",
   "status": "partial",
   "theorems": [
    "C71_clean_feature_list",
    "C71_filtered_by_cell_mask",
    "C71_filtered_by_layer_range_partial",
    "C71_negative_layer_refuted",
    "C71_full_range_keeps_unused_features_refuted",
    "C71_single_feature",
    "C71_single_feature_named",
    "C71_feature_by_name_refuted",
    "C71_append"
   ],
   "note": "Partial: layer ranges with a negative last layer count from the end (refuted); asking for all layers leaves unused features in place (refuted); a feature is found by name if its title merely starts with the name (refuted)."
  },
  {
   "property": "C72",
   "status": "partial",
   "theorems": [
    "C72_pinchout_connections_are_right",
    "C72_pinchouts_are_found_partial",
    "C72_successive_pinchouts_refuted",
    "C72_gap_within_pinchout_refuted",
    "C72_k_gap_connections",
    "C72_cached_transmissibilities_refuted"
   ],
   "note": "Refuted: the second of two pinchouts separated by a single cell is missed; a k gap within a pinchout is bridged; cached transmissibilities are kept when the set is remade for another value of skip_inactive. Partial theorems cover the rest."
  },
  {
   "property": "C73",
   "status": "partial",
   "theorems": [
    "C73_connections_survive_nexus_files",
    "C73_multipliers_survive_partial",
    "C73_multipliers_survive_refuted",
    "C73_name_with_comment_mark_refuted",
    "C73_connections_of_a_table",
    "C73_nothing_without_create",
    "C73_existing_interpretation_refuted",
    "C73_comments_are_ignored"
   ],
   "note": "The connections survive (proved). Multipliers survive only if all are equal (partial): otherwise a row is written with the multiplier of the row after it (refuted). Names are cut at '!' (refuted); a fault whose interpretation exists cannot be read (refuted), nor anything without create_organizing_objects_where_needed."
  },
  {
   "property": "C74",
   "status": "partial",
   "theorems": [
    "C74_selection_partial",
    "C74_uom_is_ignored_refuted",
    "C74_uom_never_matters",
    "C74_special_time_index_refuted",
    "C74_selections_compose",
    "C74_singleton",
    "C74_inheriting",
    "C74_inheriting_keeps_what_was_there",
    "C74_inheriting_everything",
    "C74_like_an_example_partial",
    "C74_time_series_mixes_facets_refuted"
   ],
   "note": "Proved for every criterion but the unit of measure, which is accepted and ignored (refuted; C74_uom_never_matters). Text given for time_index, as documented for '*' and 'none', raises TypeError (refuted). Attributes the example does not have are not compared by the similar-parts methods, so that a time series mixes facets (partial + refuted)."
  },
  {
   "property": "C75",
   "status": "partial",
   "theorems": [
    "C75_reevaluation_partial",
    "C75_own_realization",
    "C75_units_depend_on_order_refuted",
    "C75_asking_changes_nothing",
    "C75_first_answer_partial",
    "C75_answers_are_remembered",
    "C75_answers_go_stale_refuted",
    "C75_numbering"
   ],
   "note": "Re-evaluation is right, and so is the first answer after any history (units: when all properties have one or none has). Answers are then remembered for good and go stale (C75_answers_are_remembered, refuted); the answer about units depends on the order of the properties (refuted)."
  },
  {
   "property": "C76",
   "status": "partial",
   "theorems": [
    "C76_remembered_answers_mix_kinds_refuted"
   ],
   "note": "Proved, with the success conditions as an equivalence, for collections not asked about themselves before; a remembered answer lets different kinds be stacked (refuted, a consequence of C75). Shape and dtype conversion of the arrays are not modelled."
  },
  {
   "property": "C77",
   "status": "partial",
   "theorems": [
    "C77_linear",
    "C77_zero_fixed",
    "C77_zero_at_the_ends_partial",
    "C77_zero_at_zero_refuted",
    "C77_in_range_and_order",
    "C77_logarithm",
    "C77_cycle",
    "C77_nothing_to_show",
    "C77_remembered_limits",
    "C77_wrong_metadata_refuted"
   ],
   "note": "Proved for all cases but one: with the zero at 0 and no positive value (or at 1 and no negative value) the range is empty or upside down (partial + refuted). trust_min_max with wrong metadata gives values outside 0 to 1 (refuted). Floating point rounding and the mask of the result are not modelled."
  },
  {
   "property": "C78",
   "status": "proved",
   "theorems": [
    "C78_faces",
    "C78_round_trips",
    "C78_edges"
   ],
   "note": "Proved."
  },
  {
   "property": "C79",
   "status": "partial",
   "theorems": [
    "C79_attributes_survive",
    "C79_limits",
    "C79_float_constant_refuted",
    "C79_null_of_a_constant_refuted",
    "C79_uom_item_refuted",
    "C79_given_minimum_refuted",
    "C79_null_as_minimum_refuted"
   ],
   "note": "Round trip proved for all suitable arguments, through the document as stored (C44). Refuted outside: a discrete constant given as a float cannot be read back; the null value of a constant is lost; extra metadata named 'Uom' replaces the unit 'Euc'; a given minimum is dropped without array or constant; null values count for the minimum of a discrete array. The text of a float is a parameter; relations between parts and the array in the hdf5 file are not modelled here."
  },
  {
   "property": "C80",
   "status": "partial",
   "theorems": [
    "C80_sum",
    "C80_lengths",
    "C80_sample",
    "C80_weighted_mean",
    "C80_refine",
    "C80_refine_lengths",
    "C80_refined_then_coarsened",
    "C80_every_part_once",
    "C80_rock_volume_with_porosity_refuted",
    "C80_grid_volumes_refuted",
    "C80_missing_value_refuted",
    "C80_all_realizations_refuted",
    "C80_refine_other_elements_refuted",
    "C80_weights",
    "C80_in_place",
    "C80_checked",
    "C80_some_left_out_refuted"
   ],
   "note": "Sum, sample, length average, weighted mean, refinement, lengths and there-and-back proved for every mapping. Every part once: proved unless a realization and all realizations are asked for together (refuted). Refuted: with a porosity the imported rock volumes (or the volumes cached by the grids) are multiplied by the porosity in place, and later means use the wrong weights; a missing value counts as zero in a mean; a property for other elements than cells stops a refinement. The weights that each mean takes in a whole run are stated in C80_weights, for every run that copies a net to gross ratio or no porosity; the remaining case is the refuted one. Values are rationals; constant properties are left out."
  },
  {
   "property": "C81",
   "status": "partial",
   "theorems": [
    "C81_spread",
    "C81_nothing_coarsened",
    "C81_regular_coarsening",
    "C81_kid_conflict_refuted",
    "C81_transmissibility_refuted"
   ],
   "note": "Proved for every division into boxes when given as an array or by ICOARS, and from KID when the cell beyond the host's row along each axis is itself a host, which holds for every regular coarsening (C81_regular_coarsening). Refuted: without that KID is misread and volume is lost (the code has a todo there); a transmissibility or undirected length, meant to be skipped, is replaced by the array of the property before it, or the call fails if there is none."
  },
  {
   "property": "C82",
   "status": "proved",
   "theorems": [
    "C82_interval_for_md",
    "C82_entry_and_exit",
    "C82_cell_at_depth",
    "C82_index_maps",
    "C82_xyz_for_md",
    "C82_control_points"
   ],
   "note": "At a node shared by two intervals the earlier one is found with fraction 1."
  },
  {
   "property": "C83",
   "status": "partial",
   "theorems": [
    "C83_contributions",
    "C83_all_cells",
    "C83_whole_frame",
    "C83_perforated",
    "C83_active",
    "C83_dominant",
    "C83_kh",
    "C83_kh_conserved",
    "C83_skin",
    "C83_radius",
    "C83_touching_refuted",
    "C83_one_node_refuted"
   ],
   "note": "Everything stated is proved. Refuted: that only intervals overlapping a cell contribute to it (C83_touching_refuted: a cell that starts exactly where an active interval ends is flagged active and open, and takes that interval's radius and a skin of zero); a frame of one node makes the call fail (C83_one_node_refuted)."
  },
  {
   "property": "C84",
   "status": "partial",
   "theorems": [
    "C84_plane",
    "C84_triangle",
    "C84_triangles",
    "C84_line_sets",
    "C84_poly_line",
    "C84_lists",
    "C84_lists_ascending",
    "C84_last",
    "C84_first",
    "C84_lines",
    "C84_projection",
    "C84_snap",
    "C84_snap_point_refuted"
   ],
   "note": "Everything stated is proved over exact rationals. Refuted: that a point can be snapped to any segment (C84_snap_point_refuted: nothing is returned when the two ends are one point, although that point is the nearest)."
  },
  {
   "property": "C85",
   "status": "partial",
   "theorems": [
    "C85_corners",
    "C85_point",
    "C85_undefined_cell",
    "C85_undefined_pillar",
    "C85_one_cell",
    "C85_depths",
    "C85_centres",
    "C85_gaps",
    "C85_stacked",
    "C85_side_by_side",
    "C85_horizon",
    "C85_horizons",
    "C85_horizons_bad_range",
    "C85_healed",
    "C85_healing_leaves_whole_pillars",
    "C85_one_horizon",
    "C85_line_ends",
    "C85_section_partial",
    "C85_gap_section_refuted",
    "C85_split_section_refuted",
    "C85_undefined_pillar_refuted",
    "C85_interpolated",
    "C85_interpolation_stays_inside",
    "C85_lattice",
    "C85_interpolation_ends"
   ],
   "note": "Everything stated is proved with exact rationals for coordinates, except: x_section_corner_points on an unfaulted grid with k gaps always raises ValueError (C85_gap_section_refuted), split_x_section_points cannot give a section across I of an unfaulted grid (C85_split_section_refuted), and on a faulted grid with flags for undefined pillars the wrong flag is tested (C85_undefined_pillar_refuted). C85_section_partial is the rest of the claim about sections. Not modelled: reading from hdf5, masks of nan, rotation of sections, caches of derived arrays."
  },
  {
   "property": "C86",
   "status": "partial",
   "theorems": [
    "C86_extraction_partial",
    "C86_bad_box",
    "C86_pillar_flags_refuted",
    "C86_three_way_split_refuted"
   ],
   "note": "C86_extraction_partial is the whole claim for sources without flags for undefined pillars and in which no two extra pillars of one primary pillar compete for a box (always so if no pillar is doubled twice: once_each). Missing because false: with pillar flags the extraction always fails (C86_pillar_flags_refuted), and a pillar split three ways can give the new grid the points of the wrong pillar (C86_three_way_split_refuted). Not modelled: the parent window, properties, crs, storage and set_parent_window."
  },
  {
   "property": "C87",
   "status": "partial",
   "theorems": [
    "C87_by_layer",
    "C87_by_layer_found",
    "C87_by_layer_length",
    "C87_ranges",
    "C87_found",
    "C87_variation",
    "C87_dominant",
    "C87_gap_refuted",
    "C87_idle_layer_refuted",
    "C87_single_layer_partial",
    "C87_single_layer_gaps_refuted",
    "C87_zones_partial",
    "C87_zone_bases_refuted",
    "C87_one_range_refuted",
    "C87_from_array",
    "C87_defined"
   ],
   "note": "Ranges and dominant zones are proved in full (C87_ranges, C87_found, C87_variation, C87_dominant), and so is the zone of each layer (C87_by_layer, C87_by_layer_found, C87_by_layer_length). C87_single_layer_partial and C87_zones_partial are what holds of the grids: the geometry of a single layer without k gaps, and of several zones all but the bases. Missing because false: layers with no active cells between or within zones are refused (C87_gap_refuted, C87_idle_layer_refuted), with several zones the base of each is the top of its last layer (C87_zone_bases_refuted), k gaps are ignored (C87_single_layer_gaps_refuted), and a list of one range is ignored (C87_one_range_refuted). Not modelled: the scan of columns where some cells are undefined, regular grids, storage."
  },
  {
   "property": "C88",
   "status": "proved",
   "theorems": [
    "C88_refined",
    "C88_refined_faulted",
    "C88_coarsened",
    "C88_coarsened_refused",
    "C88_refined_then_coarsened",
    "C88_refined_faulted_grid"
   ],
   "note": "Proved over exact rationals. The refinement of a faulted grid, whose pillars are rebuilt from the refined corner points, is C88_refined_faulted_grid: corners within the tolerances of grid_from_cp (6/100 in all) of the trilinear interpolation. Not modelled: the storage of the new grid, inherited properties, parent windows and the infilling of missing geometry."
  },
  {
   "property": "C89",
   "status": "partial",
   "theorems": [
    "C89_grid_from_cp",
    "C89_exact",
    "C89_apart",
    "C89_unfaulted",
    "C89_unsplit",
    "C89_raw_index_partial",
    "C89_raw_index_refuted"
   ],
   "note": "Proved over exact rationals for arrays without missing points: extent, corners, gaps, shared pillars, mapping. The last sentence is proved for grids without gaps and refuted with them (C89_raw_index_refuted): the index kept for each layer below a gap, or anywhere below the top in a grid with gaps, is one too small. Not modelled: treat_as_nan and masks of missing points, dots, handedness, ijk_handedness and the crs."
  },
  {
   "property": "C90",
   "status": "partial",
   "theorems": [
    "C90_lookup",
    "C90_inside",
    "C90_arrays",
    "C90_interpolated",
    "C90_triangles",
    "C90_triangle_count",
    "C90_edges",
    "C90_crossings",
    "C90_axial_y_partial",
    "C90_axial_y_refuted"
   ],
   "note": "Proved over exact rationals with any positive number for the height of a triangle of unit side. Crossings of a plane of constant y: those on the edges from (j, i) to (j + 1, i) are right (C90_axial_y_partial); that the others are on the surface, that a plane through a row of nodes gives a result, and that the result is empty just when the plane misses the mesh, are refuted (C90_axial_y_refuted). Not modelled: crossings of a plane of constant x, tri meshes made from other surfaces or read from a dataset, and the fully general trimmed/rectangular meshes."
  },
  {
   "property": "C91",
   "status": "partial",
   "theorems": [
    "C91_irregular_mesh",
    "C91_torn_mesh",
    "C91_sparse_mesh",
    "C91_trimmed",
    "C91_combined",
    "C91_cell_faces",
    "C91_face_from_index_refuted"
   ],
   "note": "Proved for all the functions named except TriangulatedPatch.face_from_triangle_index, for which the last sentence is refuted (C91_face_from_index_refuted: it always raises); Surface.cell_axis_and_polarity_from_triangle_index gives the face. Not modelled: reading and writing of patches, the caching of the arrays, sails, the polygon test (any predicate), surfaces of several cells."
  },
  {
   "property": "C92",
   "status": "partial",
   "theorems": [
    "C92_closed_flags",
    "C92_combined",
    "C92_repeated_polyline_refuted",
    "C92_round_trip",
    "C92_round_trip_exact",
    "C92_charisma_partial",
    "C92_charisma_refuted",
    "C92_charisma_round_trip",
    "C92_irap",
    "C92_irap_closed_refuted",
    "C92_irap_first_line_refuted",
    "C92_duplicates_partial",
    "C92_duplicates_refuted",
    "C92_polygon_line",
    "C92_trimmed_line",
    "C92_convex_turns",
    "C92_convex_partial",
    "C92_convex_refuted",
    "C92_irap_rows"
   ],
   "note": "Refuted parts: a set that has its first polyline twice is refused (C92_repeated_polyline_refuted); a last Charisma stick of one point is joined to the polyline before (C92_charisma_refuted); a first IRAP line of one point makes reading fail (C92_irap_first_line_refuted) and closed polylines that do not repeat their first point come back open (C92_irap_closed_refuted); removing repeated vertices can lose the first vertex (C92_duplicates_refuted); a five pointed star is reported convex (C92_convex_refuted). The rest is proved. Not modelled: conversion between coordinate reference systems, text of files, metadata of polylines."
  },
  {
   "property": "C93",
   "status": "partial",
   "theorems": [
    "C93_smoothing",
    "C93_interpolated_partial",
    "C93_interpolated_refuses",
    "C93_interpolated_refuted",
    "C93_healed_grid",
    "C93_healed_refuses",
    "C93_throw_moves",
    "C93_throws",
    "C93_midpoints_stay",
    "C93_factor_one",
    "C93_named_fault_partial",
    "C93_other_faults",
    "C93_named_factor_one_refuted",
    "C93_three_lines_refuted"
   ],
   "note": "Refuted parts: an interpolated grid loses the k gaps (C93_interpolated_refuted); a named fault with factor 1 is scaled by the default factor (C93_named_factor_one_refuted); where three lines of a pillar meet in a named fault their throws are not all multiplied by its factor (C93_three_lines_refuted). C93_interpolated_partial is for grids without k gaps and with the same split pillars; C93_named_fault_partial is for lines that face only each other across the named faults. Not modelled: interpolation from corner points, the repetition of the smoothing pass (one pass is: C93_smoothing), undefined points, properties."
  },
  {
   "property": "C94",
   "status": "partial",
   "theorems": [
    "C94_drape_moves",
    "C94_drape_refuses",
    "C94_draped",
    "C94_drape_refuted",
    "C94_decay",
    "C94_local_depth",
    "C94_rotation_refuted"
   ],
   "note": "Refuted parts: with k gaps the reference row is not that of the reference layer, which is then not put on the surface (C94_drape_refuted); a negative rotation of the crs is ignored in a local depth adjustment with a global centre (C94_rotation_refuted). The rest is proved. Where pillars meet the surface is a parameter (see C84). Local depth adjustment is modelled over the reals. Not modelled: undefined points, the making and rescaling of surfaces, properties."
  },
  {
   "property": "C95",
   "status": "proved",
   "theorems": [
    "C95_encloses",
    "C95_refused"
   ],
   "note": "C95_encloses and C95_refused. The corner points of the imported cell are modelled, before the change to pillars (see C89). Points are of eight byte floats and units and direction of z are those of the grid, so that nothing is converted; no stale binary copy of the temporary file is about."
  }
 ]
}