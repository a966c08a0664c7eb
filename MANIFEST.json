{
 "claims": [
  {
   "property": "C01",
   "status": "proved",
   "theorems": [
    "limited_dict_keeps_newest_insertions",
    "unlimited_dict_drops_nothing",
    "limited_dict_constructor_same_as_assignments",
    "limited_dict_negative_limit_raises"
   ],
   "note": "A negative limit makes every assignment raise KeyError; stated separately."
  },
  {
   "property": "C02",
   "status": "partial",
   "theorems": [
    "cache_generated_once_and_dropped_partial",
    "nested_context_reuses_outer_value",
    "forced_read_outside_context_raises",
    "cache_survives_exception_refuted"
   ],
   "note": "Normal exit proved for all programs of nested contexts and reads; the exceptional exit is violated by the code (no try/finally): the stale value is kept, refuted with a witness. Generators that open contexts themselves are not modelled."
  },
  {
   "property": "C03",
   "status": "partial",
   "theorems": [
    "hash_ignores_enumeration_order_partial",
    "hash_fails_only_on_deep_nesting",
    "hash_order_of_bytes_and_text_keys_refuted",
    "hash_of_empty_sequences_refuted",
    "hash_of_complex_integer_refuted"
   ],
   "note": "Proved when the keys of each plain dictionary have pairwise different hashes. Violated for dictionaries holding b'a' and 'a' as keys, for empty list vs empty tuple, and for the documented 1 == 1+0j."
  },
  {
   "property": "C04",
   "status": "partial",
   "theorems": [
    "hash_separates_ordered_values_partial",
    "hash_separates_plain_dictionaries_partial",
    "hash_confuses_dict_and_list_refuted",
    "hash_confuses_set_and_list_refuted"
   ],
   "note": "Violated: a dictionary collides with the list of its keys and values, a set with a sorted list. What is separated is proved relative to a digest without collisions on the digested texts."
  },
  {
   "property": "C05",
   "status": "partial",
   "theorems": [
    "C05_table_content",
    "C05_only_empty_fails",
    "C05_unequal_lengths_refuted"
   ],
   "note": "Proved for every sequence of add/replace calls with as many y as x values (numbers as exact rationals, units fixed). Refuted without that condition: a call with fewer y values silently changes other entries."
  },
  {
   "property": "C06",
   "status": "partial",
   "theorems": [
    "C06_interpolation",
    "C06_empty_table",
    "C06_empty_table_refuted"
   ],
   "note": "Proved for all reachable tables over exact rationals (linear interpolation of scipy modelled). Refuted after a failed add/replace of empty arrays on an empty table: the table then raises TypeError instead of returning the default."
  },
  {
   "property": "C07",
   "status": "proved",
   "theorems": [
    "sort2lists_sorts_pairs_stably",
    "sort2lists_empty_only",
    "unique2lists_add_sums",
    "unique2lists_first_wins",
    "unique2lists_first_raises_only_when_empty",
    "sumrepeats_sums",
    "sumrepeats_preserves_total"
   ],
   "note": "Empty input: sort2lists yields an empty tuple and unique2lists (not adding) raises ValueError; both stated."
  },
  {
   "property": "C08",
   "status": "partial",
   "theorems": [
    "move_permutes",
    "move_puts_element_there_partial",
    "move_to_last_refuted",
    "swap_exchanges_two",
    "swap_permutes",
    "swap_twice_restores",
    "roll_permutes",
    "roll_positions_partial",
    "roll_negative_refuted"
   ],
   "note": "Violated by the code for a move target counted from the back and for rolling by a negative distance (abs() makes it roll the same way); both refuted with a witness, the non-negative cases proved."
  },
  {
   "property": "C09",
   "status": "partial",
   "theorems": [
    "bool_indexing_selects_true_positions_partial",
    "bool_indexing_wrong_length_refuted",
    "int_indexing_is_pointwise",
    "int_indexing_raises_out_of_range",
    "where_lists_matching_positions"
   ],
   "note": "Violated for a boolean index whose length differs from the list: it is accepted and truncated instead of raising. Everything else proved."
  },
  {
   "property": "C10",
   "status": "proved",
   "theorems": [
    "flatten_lists_leaves_in_order",
    "flatten_of_flat_list",
    "unique_everseen_keeps_first_occurrences"
   ],
   "note": ""
  },
  {
   "property": "C11",
   "status": "partial",
   "theorems": [
    "C11_writes_positional_notation",
    "C11_reads_positional_notation",
    "C11_unknown_symbol_raises",
    "C11_roundtrip_partial",
    "C11_string_roundtrip",
    "C11_negative_roundtrip_refuted",
    "C11_single_symbol_diverges",
    "C11_no_symbols_raises"
   ],
   "note": "Proved for all non-negative integers and all alphabets of at least two distinct one-character symbols, in both directions. Refuted for negative integers: the minus sign written by int2base makes base2int raise ValueError."
  },
  {
   "property": "C12",
   "status": "partial",
   "theorems": [
    "C12_clip_inside",
    "C12_clip_pointwise",
    "C12_inside_unchanged",
    "C12_clip_idempotent",
    "C12_dimension_error",
    "C12_selects_like_slice_partial",
    "C12_region_beyond_end_refuted"
   ],
   "note": "Inside, unchanged, idempotent: proved for all sizes and limits. 'Selects what slicing selects' holds when the lower limit is below the length and is refuted otherwise: a region beyond the end is clipped to the last element."
  },
  {
   "property": "C13",
   "status": "proved",
   "theorems": [
    "C13_merge_same_points",
    "C13_merge_same_half_open_points",
    "C13_merge_sorted_disjoint",
    "C13_merge_idempotent",
    "C13_merge_limits_from_input"
   ],
   "note": "For any total order and any list of intervals, also reversed ones."
  },
  {
   "property": "C14",
   "status": "partial",
   "theorems": [
    "C14_lookup_partial",
    "C14_unknown_raises",
    "C14_own_name",
    "C14_alias_stays_reachable_refuted",
    "C14_any_letter_case_refuted"
   ],
   "note": "Complete characterisation of every lookup after any sequence of class creations (single inheritance, one root, ASCII case folding). Refuted: inherited aliases are taken over by subclasses; mixed-case spellings are not found."
  },
  {
   "property": "C15",
   "status": "partial",
   "theorems": [
    "C15_getitem_partial",
    "C15_empty_ellipsis_refuted",
    "C15_single_dimension_refuted",
    "C15_broadcast_refuted",
    "C15_no_shape_refuted"
   ],
   "note": "Any number of arrays, any shapes, any axis, any mix of slices, numbers, lists, new axes and Ellipsis, with lists of equal length. Refuted for an Ellipsis that stands for no dimension, for one-dimensional stacks indexed by a non-tuple, for broadcast lists and for empty selections without a given shape."
  },
  {
   "property": "C16",
   "status": "partial",
   "theorems": [
    "C16_expand_in_place",
    "C16_expand_again",
    "C16_too_many_indices_raise",
    "C16_expand_same_selection_partial",
    "C16_nonchanging_selects_all",
    "C16_empty_ellipsis_refuted",
    "C16_two_ellipses_refuted"
   ],
   "note": "Proved for tuples with at most one Ellipsis; an Ellipsis standing for no dimension raises and a second Ellipsis is left in the result (refuted)."
  },
  {
   "property": "C17",
   "status": "proved",
   "theorems": [
    "C17_recorded_operations",
    "C17_transpositions_compose",
    "C17_move_axis",
    "C17_move_back"
   ],
   "note": "Any sequence of index and transpose operations on arrays of any rank."
  },
  {
   "property": "C18",
   "status": "partial",
   "theorems": [
    "C18_every_element_once",
    "C18_in_order",
    "C18_block_size",
    "C18_blocks_maximal",
    "C18_size_limit_refuted"
   ],
   "note": "Coverage, order and maximality for every shape and limit. The size limit itself is refuted when the dimensions that are never cut already exceed it."
  },
  {
   "property": "C19",
   "status": "partial",
   "theorems": [
    "C19_product_is_composition_partial",
    "C19_associative_partial",
    "C19_identity_neutral",
    "C19_inverse",
    "C19_power",
    "C19_negative_power_raises",
    "C19_power_zero_refuted",
    "C19_power_of_product_refuted"
   ],
   "note": "Products of any length with finite slopes and offsets. Refuted: power zero is the constant 1, and powers of products drop all factors but the first."
  },
  {
   "property": "C20",
   "status": "partial",
   "theorems": [
    "C20_merge_clips",
    "C20_exchange_partial",
    "C20_inverse_unclipped",
    "C20_zero_slope_refuted"
   ],
   "note": "All limits including missing, NaN and infinite ones, slopes other than zero. With slope zero the exchange divides by zero and gives NaN (refuted)."
  },
  {
   "property": "C21",
   "status": "proved",
   "theorems": [
    "C21_shift_back",
    "C21_shift_moves",
    "C21_frequency_axis"
   ],
   "note": "arrays of any number of dimensions; both conventions"
  },
  {
   "property": "C22",
   "status": "proved",
   "theorems": [
    "C22_roundtrip",
    "C22_resampled",
    "C22_paths_agree",
    "C22_linear",
    "C22_rotation",
    "C22_roundtrip_2d",
    "C22_resampled_2d",
    "C22_refused"
   ],
   "note": "exact complex numbers (pairs of Coq reals, stdlib Reals axioms); floating point rounding not modelled; np.fft modelled from its documented sum"
  },
  {
   "property": "C23",
   "status": "proved",
   "theorems": [
    "C23_optimal",
    "C23_defined",
    "C23_line",
    "C23_origin_optimal",
    "C23_origin_defined",
    "C23_nan",
    "C23_refused",
    "C23_errors",
    "C23_origin_errors_refuted"
   ],
   "note": "Exact rationals. Also proved: nan points are left out, and the reported errors equal those of the matrix form for three or more points. Refuted side claim: through the origin the closed-form error differs from the matrix form (np.var subtracts the mean residual)."
  },
  {
   "property": "C24",
   "status": "proved",
   "theorems": [
    "C24_solves",
    "C24_decides",
    "C24_refused"
   ],
   "note": "General Cramer's rule for any size over exact rationals; numpy's det is modelled by the Laplace expansion."
  },
  {
   "property": "C25",
   "status": "proved",
   "theorems": [
    "C25_convert",
    "C25_roundtrip",
    "C25_third",
    "C25_scaled"
   ],
   "note": "Exact rationals instead of floats; all six conversions."
  },
  {
   "property": "C26",
   "status": "proved",
   "theorems": [
    "C26_densities"
   ],
   "note": "Also the molar mass from mass fractions."
  },
  {
   "property": "C27",
   "status": "proved",
   "theorems": [
    "C27_add_frac",
    "C27_addcompounds",
    "C27_addelements",
    "C27_refused",
    "C27_elements_refused"
   ],
   "note": "For add_frac itself and for mixtures (all kinds of fractions) and compounds (mass and mole)."
  },
  {
   "property": "C28",
   "status": "proved",
   "theorems": [
    "C28_fractions",
    "C28_listed_twice",
    "C28_massfractions",
    "C28_tocompound",
    "C28_compound",
    "C28_molefractions_refuted"
   ],
   "note": "Everything in the statement holds. In addition: the elemental mole fractions of a mixture are not those of the mixture as one compound (C28_molefractions_refuted): the atoms of each compound are weighted as one."
  },
  {
   "property": "C29",
   "status": "partial",
   "theorems": [
    "C29_formula",
    "C29_terminates",
    "C29_accepted",
    "C29_rejected",
    "C29_truncated_refuted"
   ],
   "note": "Proved for every formula and every string, except that the code violates the last clause: text after a formula is silently dropped (parseString without parseAll), C29_truncated_refuted."
  },
  {
   "property": "C30",
   "status": "partial",
   "theorems": [
    "C30_combine",
    "C30_associative",
    "C30_mixed",
    "C30_inverse_defined",
    "C30_inverse",
    "C30_inverse_twice",
    "C30_frame",
    "C30_frames",
    "C30_frame_inplace",
    "C30_coordinates",
    "C30_coordinates_combine",
    "C30_coordinates_shape",
    "C30_homogeneous_refuted",
    "C30_kinds"
   ],
   "note": "Everything is proved for the maps of the plane. The code's coordinate functions agree on points with third coordinate 1; C30_homogeneous_refuted shows that chaining them through a perspective (third coordinate not 1) is wrong for a translation, which ignores that coordinate. Numbers are exact."
  },
  {
   "property": "C31",
   "status": "partial",
   "theorems": [
    "C31_translation",
    "C31_linear",
    "C31_affine",
    "C31_projective",
    "C31_rigid",
    "C31_identity",
    "C31_isidentity",
    "C31_fromtransform",
    "C31_affine_refuted",
    "C31_kind_refuted",
    "C31_angle_refuted",
    "C31_rigid_refuted"
   ],
   "note": "Setting keeps the unaffected part and stores what was set; false as stated: getaffine never returns what setaffine set, setlinear on a rigid mapping and setprojective on a non-projective one keep a kind that cannot represent it, setrigid fails on a translation, getrigid loses the sign of the angle and fails on a projective mapping."
  },
  {
   "property": "C32",
   "status": "partial",
   "theorems": [
    "C32_image",
    "C32_axes_partial",
    "C32_overcrop_refuted"
   ],
   "note": "Image part for every box; axes for every box that touches the image (with at least two points when padding). A box that does not touch the image gives an image but a ValueError for the axis (C32_overcrop_refuted). The transformation between padding and cropping is not part of these theorems."
  },
  {
   "property": "C33",
   "status": "partial",
   "theorems": [
    "C33_reapply_partial",
    "C33_align_partial",
    "C33_onepass_partial",
    "C33_kinds_refuted",
    "C33_onraw_refuted",
    "C33_frame_refuted",
    "C33_roi_refuted"
   ],
   "note": "Proved for translations (the only kind for which align does not fail, C33_kinds_refuted), except pairwise alignment on raw images without padding or cropping, where the reference dataset gets another transformation (C33_onraw_refuted). The interpolation, the align kernels and the polygons that give padding and centring are parameters."
  },
  {
   "property": "C34",
   "status": "partial",
   "theorems": [
    "C34_pairwise_partial",
    "C34_accumulated",
    "C34_fixed",
    "C34_order_refuted"
   ],
   "note": "Proved for translations; for other kinds the pairwise transformations are combined in the wrong order (C34_order_refuted, C34_accumulated states what is stored)."
  },
  {
   "property": "C35",
   "status": "proved",
   "theorems": [
    "C35_nearest",
    "C35_nearest_array",
    "C35_own_point",
    "C35_index",
    "C35_empty",
    "C35_string",
    "C35_category"
   ],
   "note": "Axis.locate on exact coordinates: first nearest point, own index on a strictly monotonic axis, integer indices on integer axes when asked, first most similar string (similarity ratios are an argument), first equal category or an error."
  },
  {
   "property": "C36",
   "status": "partial",
   "theorems": [
    "C36_construct",
    "C36_construct_inc",
    "C36_zapscan",
    "C36_sequence_partial",
    "C36_inc_sequence_partial",
    "C36_points_refuted",
    "C36_points_inc_refuted",
    "C36_step_refuted"
   ],
   "note": "Values stay consistent under any sequence of the implemented setters. Refuted: assigning start, end or step size adds one point each time; the inherited setters for the step of AxisRegular and the end of AxisRegularInc change the attribute but not the values."
  },
  {
   "property": "C37",
   "status": "partial",
   "theorems": [
    "C37_segments",
    "C37_stepsizes",
    "C37_endstep_refuted",
    "C37_endstep_three_refuted",
    "C37_stepsizes_rounded",
    "C37_stepsizes_zero"
   ],
   "note": "Number of points, limits, equal steps and step size setter proved for every number of segments with at least one step each. Refuted: the step size at the end is that of the second segment, so one segment raises IndexError and three give a wrong value."
  },
  {
   "property": "C38",
   "status": "partial",
   "theorems": [
    "C38_newstart",
    "C38_newend",
    "C38_newlimits_partial",
    "C38_single_refuted"
   ],
   "note": "Minimal covering on the grid of the axis proved for each limit separately and for both when the new start lies before the last point. Refuted when the new start leaves a single point: the step is lost and the new end raises."
  },
  {
   "property": "C39",
   "status": "partial",
   "theorems": [
    "C39_dependencies",
    "C39_no_redo_partial",
    "C39_run_partial",
    "C39_alone_partial",
    "C39_again_partial",
    "C39_name_clash_refuted",
    "C39_removed_refuted",
    "C39_removed_output_refuted"
   ],
   "note": "Every failure point (exception or signal after any number of chunks) and every interleaving with others that add members to the entry. Hypotheses: random temporary names unrelated to the output and to results of the same parameters, names without braces or newlines, stored parameters keep their hash. The refutations show what happens when the temporary name is related to an output. Not covered: the directory on disk next to the output, default plots, a dependency graph as a whole (a dependency is a checksum and a predicate on the file)."
  },
  {
   "property": "C40",
   "status": "partial",
   "theorems": [
    "C40_prepare_partial",
    "C40_sequence_partial",
    "C40_sequence_unique",
    "C40_sequence_distinct",
    "C40_sequence_start",
    "C40_first_free_partial",
    "C40_next_entry_partial",
    "C40_nonexisting_partial",
    "C40_braces_refuted",
    "C40_nonexisting_braces_refuted",
    "C40_next_entry_refuted",
    "C40_unlock_refuted"
   ],
   "note": "Counters and searches for a free name: the result is the first free name of the numbered sequence. Partial: names without braces and non-negative counters; refutations show that a brace in the name makes the search endless, that the default entry name is not checked, and that unlocking locks."
  },
  {
   "property": "C41",
   "status": "partial",
   "theorems": [
    "C41_decompose",
    "C41_decompose_unique",
    "C41_increment_partial",
    "C41_unnumbered_partial",
    "C41_negative",
    "C41_compose_partial",
    "C41_compose_refuted",
    "C41_braces_refuted",
    "C41_match",
    "C41_match_total",
    "C41_increment_matches_partial",
    "C41_matchfunc_refuted"
   ],
   "note": "A name splits at its last number into three parts and is rebuilt by them, incrementing changes only the number; matching decides exactly the numbered family. Partial: names without braces and non-negative counters; refutations for braces, for losing and regaining digits, and for the match function that ignores its name."
  },
  {
   "property": "C42",
   "status": "partial",
   "theorems": [
    "C42_spectrum",
    "C42_counter",
    "C42_label_xia",
    "C42_label_detector",
    "C42_label_double",
    "C42_label_plain",
    "C42_radix_refuted",
    "C42_empty_refuted",
    "C42_sort",
    "C42_sort_error",
    "C42_order"
   ],
   "note": "Spectra round-trip for every non-empty radix without slash or newline. Counters round-trip when the name of no earlier counter occurs after an underscore; a radix containing one is refuted. Sorting proved in full (order, permutation, stability, error)."
  },
  {
   "property": "C43",
   "status": "partial",
   "theorems": [
    "C43_files",
    "C43_files_all",
    "C43_files_error",
    "C43_selection_unique",
    "C43_denotes_unique",
    "C43_notation",
    "C43_short_label_refuted",
    "C43_counters",
    "C43_counters_all",
    "C43_counters_error",
    "C43_counters_end_refuted",
    "C43_number"
   ],
   "note": "Spectra: exact selection for every pair of lists; xia5 is not the same as 5 (refuted). Counters: exact for detectors of two digits and numbers below 100; 0 also selects 100 and S0 selects sum (refuted)."
  },
  {
   "property": "C44",
   "status": "partial",
   "theorems": [
    "C44_history_partial",
    "C44_shape_partial",
    "C44_add_partial",
    "C44_remove_partial",
    "C44_default",
    "C44_sort",
    "C44_again_refuted",
    "C44_only_refuted",
    "C44_link_refuted",
    "C44_scalar_refuted"
   ],
   "note": "Proved for every sequence of operations that never adds a listed name again, never links something missing and never removes the only signal; each of these three cases is refuted, as is the check of the dimensions after a signal without dimensions."
  },
  {
   "property": "C45",
   "status": "partial",
   "theorems": [
    "C45_twice_partial",
    "C45_result_partial",
    "C45_preserved",
    "C45_served_partial",
    "C45_occupied",
    "C45_history_partial",
    "C45_history_refuted",
    "C45_stored_parameters_refuted",
    "C45_checksum_partial",
    "C45_checksum_refuted",
    "C45_root_entry_partial"
   ],
   "note": "The same request returns the same process, another one gets a matching unused name, and existing processes stay as they are, over every file and every sequence of requests. Partial: names without braces and parameters whose hash survives storing (a refutation shows a duplicate otherwise); across entries a later request may return another process (refuted), within one entry it may not (proved)."
  },
  {
   "property": "C46",
   "status": "partial",
   "theorems": [
    "C46_history",
    "C46_fuel",
    "C46_balanced",
    "C46_outermost_partial",
    "C46_calls_partial",
    "C46_lost_refuted",
    "C46_hidden_refuted",
    "C46_mode_refuted"
   ],
   "note": "For every program of nested contexts, exceptions, failing openings and closings and waiting calls: one opening and one closing per outermost context, calls only after closing, nothing left behind. Every waiting call is made exactly once only when none before it raises: a raising one makes the rest disappear (refuted). The mode of an inner context is ignored (refuted)."
  },
  {
   "property": "C47",
   "status": "partial",
   "theorems": [
    "C47_effective",
    "C47_restricted",
    "C47_readonly_partial",
    "C47_only",
    "C47_no_new",
    "C47_existing",
    "C47_new",
    "C47_keeps",
    "C47_round_trip_partial",
    "C47_missing",
    "C47_directory",
    "C47_exclusive",
    "C47_denied",
    "C47_parent",
    "C47_x_overwrites_refuted",
    "C47_x_read_refuted",
    "C47_w_overwrites_refuted",
    "C47_link_refuted",
    "C47_block_refuted"
   ],
   "note": "Effect and errors of every mode on files, directories, chains of links, missing files and parents, without permission, over a model of the operating system's open. Paths in an exclusive mode cannot be read and empty existing files in mode w, paths in mode w empty files whatever is asked, and errors inside the block are reported as errors of the file (refuted)."
  },
  {
   "property": "C48",
   "status": "partial",
   "theorems": [
    "C48_norm",
    "C48_walk_unique",
    "C48_canonical",
    "C48_fixed",
    "C48_child",
    "C48_child_absolute",
    "C48_parts",
    "C48_root",
    "C48_split_join",
    "C48_sibling",
    "C48_iterup",
    "C48_common",
    "C48_common_other",
    "C48_relative",
    "C48_relative_given",
    "C48_relative_refuted",
    "C48_device_known",
    "C48_device_extension",
    "C48_device_local",
    "C48_detach",
    "C48_node_child",
    "C48_node_sibling",
    "C48_detach_refuted",
    "C48_node_child_refuted",
    "C48_node_parent_refuted",
    "C48_factory_refuted",
    "C48_no_device"
   ],
   "note": "Proved for every local path: norm, child, parent, name, sibling, iterup, common, relpath. Refuted: relative paths between the roots / and //; HDF5 locations of files without an extension; node names holding the separator after a dot; nodes whose path begins with the path of the file; files whose name extends the name of the current one. Proved for HDF5 paths outside these cases."
  },
  {
   "property": "C49",
   "status": "partial",
   "theorems": [
    "C49_once_partial",
    "C49_at_least_once_partial",
    "C49_suppress_partial",
    "C49_setup_refuted",
    "C49_teardown_refuted",
    "C49_teardown_twice_refuted",
    "C49_nested_refuted",
    "C49_enter_refuted",
    "C49_restore_refuted",
    "C49_resend_refuted",
    "C49_handler_partial"
   ],
   "note": "Tear-down once with restored handlers for signals delivered in the block (any number, any order), at least once for signals anywhere after entering. Partial: set-up and tear-down do not raise and no signal while entering; refutations for each of those cases, and for a resent signal with default disposition, which does not end the block."
  },
  {
   "property": "C50",
   "status": "partial",
   "theorems": [
    "C50_make",
    "C50_group_unique",
    "C50_same",
    "C50_print",
    "C50_copy",
    "C50_label",
    "C50_equal",
    "C50_text",
    "C50_distinct",
    "C50_error",
    "C50_s_refuted",
    "C50_prefix_refuted",
    "C50_negative_refuted",
    "C50_order_refuted"
   ],
   "note": "Round trip, equality and hashing proved for non-negative detectors, sums and free names. Refuted: names starting with S raise, doubled prefixes and negative numbers are not read back, groups cannot be ordered (the sort key is a method)."
  },
  {
   "property": "C51",
   "status": "partial",
   "theorems": [
    "C51_mask",
    "C51_mask_error",
    "C51_indices",
    "C51_region",
    "C51_found",
    "C51_empty",
    "C51_sliced",
    "C51_within",
    "C51_crop",
    "C51_axes",
    "C51_keeps",
    "C51_user",
    "C51_nothing_refuted",
    "C51_negative_refuted",
    "C51_user_negative_refuted",
    "C51_nan_refuted",
    "C51_user_end_refuted",
    "C51_full_refuted"
   ],
   "note": "Proved in full for stack dimensions counted from the front: exact hull of the chosen lines, slices and whole array agree, nothing valid is lost, cutting and axes exact. Refuted: stack dimension counted from the end, a NaN that is not the object np.nan, slicing when nothing is valid, user regions that count from the end when slicing."
  },
  {
   "property": "C52",
   "status": "partial",
   "theorems": [
    "C52_slice",
    "C52_slice_error",
    "C52_sliced",
    "C52_sliced_error",
    "C52_replace",
    "C52_axes",
    "C52_axes_refuted",
    "C52_whole_refuted"
   ],
   "note": "Proved for every elementwise operation, shape and stack dimension. Refuted: axes with a stack dimension counted from the end. Operations that look beyond the slice are shown to differ."
  },
  {
   "property": "C53",
   "status": "proved",
   "theorems": [
    "C53_encode",
    "C53_monotone",
    "C53_onto",
    "C53_colour"
   ],
   "note": "Over exact rationals in the unit interval."
  },
  {
   "property": "C54",
   "status": "partial",
   "theorems": [
    "C54_median",
    "C54_median_unique",
    "C54_length",
    "C54_far_partial",
    "C54_zero",
    "C54_zero_refuted",
    "C54_invariant",
    "C54_half",
    "C54_fixed",
    "C54_fixed_cutoff",
    "C54_sort"
   ],
   "note": "Exactly the far values are flagged when the median absolute deviation is not zero; when it is zero nothing is flagged, however far (refuted). Invariance also for negative factors. The sort of numpy is any function that sorts; the invariance with a fixed number needs that it only looks at comparisons."
  },
  {
   "property": "C55",
   "status": "partial",
   "theorems": [
    "C55_floor",
    "C55_ceil",
    "C55_floor_inside",
    "C55_ceil_inside",
    "C55_floor_outside",
    "C55_ceil_outside",
    "C55_error",
    "C55_array_refuted"
   ],
   "note": "Proved for a single request; a request of several points returns a map object instead of numbers in Python 3 (refuted)."
  },
  {
   "property": "C56",
   "status": "proved",
   "theorems": [
    "C56_ceil",
    "C56_floor",
    "C56_round",
    "C56_fixed",
    "C56_unit",
    "C56_tie",
    "C56_significant",
    "C56_significant_exists",
    "C56_relative",
    "C56_zero",
    "C56_lcm",
    "C56_lcm_positive",
    "C56_lcm_defined",
    "C56_lcm_error"
   ],
   "note": "Over exact rationals and any number of digits; significant digits too. The least common multiple of a list with at most one zero."
  },
  {
   "property": "C57",
   "status": "partial",
   "theorems": [
    "C57_equal_single_partial",
    "C57_equal_product_refuted",
    "C57_equal_reflexive_refuted"
   ],
   "note": "Holds for single operators that are not lambdas; refuted for products because the comparison ignores the right factors."
  },
  {
   "property": "C58",
   "status": "proved",
   "theorems": [
    "C58_propagation"
   ],
   "note": "np.linalg.inv is modelled exactly; floating-point near-singularity is outside the model. For square systems with given variances they must not be zero."
  },
  {
   "property": "C59",
   "status": "partial",
   "theorems": [
    "C59_fractions_restored",
    "C59_ratios_restored",
    "C59_ratios",
    "C59_refused",
    "C59_no_gaussian_refuted",
    "C59_switched_off_refuted"
   ],
   "note": "Holds when the Gaussian part is enabled and its fraction is not zero; refuted otherwise with concrete shapes. The shape integrals are parameters."
  },
  {
   "property": "C60",
   "status": "partial",
   "theorems": [
    "C60_setfraction_refuted"
   ],
   "note": "The code violates it: on Python 3 every call that leaves other components raises TypeError (np.asarray(dict.values()) is a zero-dimensional object array). A compound given instead of a list of compounds is not modelled."
  },
  {
   "property": "C61",
   "status": "partial",
   "theorems": [
    "C61_image_partial",
    "C61_affine",
    "C61_projective",
    "C61_stretch_refuted",
    "C61_perspective_refuted"
   ],
   "note": "True for translations, rigid and similarity mappings and for affine mappings with equal diagonal; for other affine mappings the transposed matrix samples the wrong pixel, and a perspective whose linear part is the identity is applied as a shift. Interpolation and borders are not modelled."
  },
  {
   "property": "C62",
   "status": "partial",
   "theorems": [
    "C62_translation",
    "C62_outliers",
    "C62_similarity",
    "C62_affine",
    "C62_rigid_partial",
    "C62_rigid_refuted",
    "C62_refused"
   ],
   "note": "np.linalg.lstsq and svd are parameters assumed to return a least-squares solution and a singular value decomposition. The rigid case is right exactly when V is symmetric (the code uses V instead of its transpose); with ten or more key points the trimmed centroids are not covered for the rigid case."
  },
  {
   "property": "C63",
   "status": "partial",
   "theorems": [
    "C63_exact",
    "C63_shape_partial",
    "C63_precision_refuted"
   ],
   "note": "Exact with zero tolerance; with a tolerance only the number of points and the two ends are kept, deviations add up beyond the tolerance."
  },
  {
   "property": "C64",
   "status": "partial",
   "theorems": [
    "C64_equal",
    "C64_symmetric_refuted"
   ],
   "note": "Pointwise characterisation proved; equality is not symmetric because only the precision of the left axis is used."
  },
  {
   "property": "C65",
   "status": "partial",
   "theorems": [
    "C65_interpolate",
    "C65_single_refuted"
   ],
   "note": "Proved for at least two points; an axis with one point raises IndexError."
  },
  {
   "property": "C66",
   "status": "partial",
   "theorems": [
    "C66_modes_partial",
    "C66_keeps_partial",
    "C66_no_new_partial",
    "C66_new_mode_refuted",
    "C66_truncates_refuted",
    "C66_exists_refuted"
   ],
   "note": "Holds for the modes r, r+ and a. A device in mode w is emptied at every opening of a node, one in mode x cannot be read and w- is refused (refuted). The contents of the HDF5 file are not modelled here, only what happens to the file."
  },
  {
   "property": "C67",
   "status": "partial",
   "theorems": [
    "C67_group",
    "C67_groupmaps",
    "C67_grouplines",
    "C67_groupmaps2",
    "C67_error",
    "C67_detectors_sound",
    "C67_detectors",
    "C67_detectors_one",
    "C67_detectors_refuted"
   ],
   "note": "Grouping by radix, map and line proved in full. Grouping by detector is sound, and complete when no two files share detector and label or all do; with two lines and two detectors it loses files (refuted)."
  },
  {
   "property": "C68",
   "status": "partial",
   "theorems": [
    "C68_weighted",
    "C68_between",
    "C68_mean",
    "C68_one",
    "C68_error",
    "C68_broadcast_refuted",
    "C68_list_refuted"
   ],
   "note": "Proved for as many weights as values when one of them is a numpy array. An array with one weight gives the sum instead of the mean and two lists raise (refuted)."
  },
  {
   "property": "C69",
   "status": "partial",
   "theorems": [
    "C69_equal",
    "C69_common",
    "C69_error",
    "C69_nothing",
    "C69_keep_refuted",
    "C69_scalar_refuted"
   ],
   "note": "Proved for all shapes. Refuted: with keep_shapes_when_equal the shape that needs no change is returned as () when another one changes; a scalar shape gets a dimension."
  },
  {
   "property": "C70",
   "status": "partial",
   "theorems": [
    "C70_boxes",
    "C70_order",
    "C70_error",
    "C70_tile",
    "C70_detector_refuted",
    "C70_more_refuted"
   ],
   "note": "Proved for scans without detector dimensions that fill the scan or are a single row with complete lines. Refuted: interrupted scans with detector dimensions fail with TypeError (the detector slices are appended twice); scans with more points than expected fail."
  },
  {
   "property": "C71",
   "status": "partial",
   "theorems": [
    "C71_stack",
    "C71_detector",
    "C71_single",
    "C71_pixels_refuted",
    "C71_rows_refuted",
    "C71_short_refuted",
    "C71_mesh_refuted"
   ],
   "note": "Proved for scans without detector dimensions (complete or interrupted) and for complete scans with detectors. Refuted: interrupted scans with detectors mix pixels of different points; multi-row sources lose points in the middle; one scan stopped in its first line makes the merge fail; the map of mesh scans is never used."
  },
  {
   "property": "C72",
   "status": "partial",
   "theorems": [
    "C72_eval",
    "C72_unknown_function_refuted",
    "C72_unknown_variable_refuted",
    "C72_sign_refuted",
    "C72_malformed_refuted",
    "C72_in_place_refuted"
   ],
   "note": "Proved for all trees, white space and arithmetics, except nanone/nanzero applied directly to a variable, where the array is changed in place (C72_in_place_refuted). Also refuted: unknown functions and variables are worth zero instead of an error, a sign binds stronger than a power, the grammar accepts '2---'. The functions themselves (numpy) are parameters of the arithmetic."
  },
  {
   "property": "C73",
   "status": "partial",
   "theorems": [
    "C73_process",
    "C73_general",
    "C73_no_data",
    "C73_other",
    "C73_unique",
    "C73_absent",
    "C73_several",
    "C73_fourth_refuted",
    "C73_only_data",
    "C73_only_data_refuted"
   ],
   "note": "Proved for at most three names besides {} and, more generally, as long as no generated name is reserved. Refuted: the fourth name becomes var_e which is Euler's number; a template with {} only is not applied."
  },
  {
   "property": "C74",
   "status": "partial",
   "theorems": [
    "C74_to_stokes",
    "C74_coherency",
    "C74_coherency_back",
    "C74_not_hermitian",
    "C74_jones_roundtrip",
    "C74_stokes_roundtrip",
    "C74_lossy_error",
    "C74_lossy",
    "C74_fully_polarized",
    "C74_degrees",
    "C74_physical",
    "C74_decompose",
    "C74_set_intensity",
    "C74_set_jones_intensity",
    "C74_params",
    "C74_params_form",
    "C74_params_back",
    "C74_params_error",
    "C74_phase_refuted"
   ],
   "note": "Proved over Coq's reals for all states, except that a Jones vector without first component loses the phase of the second (C74_phase_refuted). A state with the handedness 'none' but dop > dolp comes back left handed (C74_params_form). Exact arithmetic: the tolerances of np.allclose are not modelled."
  },
  {
   "property": "C75",
   "status": "partial",
   "theorems": [
    "C75_rotate_form",
    "C75_thomson_form",
    "C75_compton_form",
    "C75_rotate_commutes",
    "C75_rotate_twice",
    "C75_rotate_keeps",
    "C75_rotate_angle",
    "C75_thomson_wave",
    "C75_thomson_commutes",
    "C75_thomson_intensity",
    "C75_compton_intensity",
    "C75_thomson_physical",
    "C75_compton_physical",
    "C75_compton_forward",
    "C75_mueller_partial",
    "C75_mueller_refuted"
   ],
   "note": "Proved over Coq's reals, except the Mueller matrix of a Jones matrix: right for symmetric matrices (C75_mueller_partial), wrong for a rotation, where the intensity becomes negative (C75_mueller_refuted: np.kron(M, M^H) should be np.kron(M, conj M))."
  },
  {
   "property": "C76",
   "status": "partial",
   "theorems": [
    "C76_move",
    "C76_files",
    "C76_error",
    "C76_refuses",
    "C76_runs",
    "C76_force",
    "C76_across",
    "C76_mkdir",
    "C76_force_itself_refuted",
    "C76_link_refuted"
   ],
   "note": "Proved for moves without force through any links on one file system, and for moves with force or across file systems on paths without links. Not true of the code: with force, a destination that is the source loses it (C76_force_itself_refuted), and a destination or, across file systems, a source that is a link loses what the link points to (C76_link_refuted)."
  },
  {
   "property": "C77",
   "status": "partial",
   "theorems": [
    "C77_recursive",
    "C77_one",
    "C77_missing",
    "C77_link",
    "C77_loop_refuted",
    "C77_inside_refuted"
   ],
   "note": "Proved, except that links in a cycle cannot be removed recursively (C77_loop_refuted) and that a link inside its own target raises after its target is gone (C77_inside_refuted). Recursive removal of a link is proved for one link to a file or directory."
  },
  {
   "property": "C78",
   "status": "partial",
   "theorems": [
    "C78_copy",
    "C78_copy_force",
    "C78_copy_keeps",
    "C78_link",
    "C78_link_followed",
    "C78_temp_renamed",
    "C78_temp_dropped",
    "C78_temp_replaces",
    "C78_temp_nothing",
    "C78_temp_nameless",
    "C78_copy_link_refuted",
    "C78_copy_link_force_refuted",
    "C78_copy_force_itself_refuted"
   ],
   "note": "Proved for destinations whose directory exists; that nothing existing changes without force is proved for all. Not true of the code: a link cannot be copied, since copy passes the method linkdest instead of its result (C78_copy_link_refuted), and with force the destination is gone by then; a forced copy onto itself loses the data. Relative link targets, hard links and the option dereference are not modelled."
  },
  {
   "property": "C79",
   "status": "proved",
   "theorems": [
    "C79_compound",
    "C79_repeat",
    "C79_bernouilli",
    "C79_reverse_add",
    "C79_reverse_sub",
    "C79_reverse_mult",
    "C79_reverse_div",
    "C79_back",
    "C79_forth",
    "C79_repeat_back",
    "C79_poisson",
    "C79_selection",
    "C79_cascade"
   ],
   "note": "Exact for distributions with finitely many values. reverse_mult and reverse_div are shown to undo the first-order formulas, which is what the code states."
  },
  {
   "property": "C80",
   "status": "partial",
   "theorems": [
    "C80_chain",
    "C80_camera",
    "C80_dark_refuted",
    "C80_transmission",
    "C80_nodark_refuted",
    "C80_flux",
    "C80_flat_refuted",
    "C80_frames",
    "C80_frames_refuted"
   ],
   "note": "Not true of the code: the dark noise has a variance that grows with the square of the exposure time (C80_dark_refuted), a measurement without dark frames cannot be normalised (C80_nodark_refuted), flatfromflux forgets the frame time (C80_flat_refuted) and the number of flat frames ignores the time of a flat frame (C80_frames_refuted). Absorption, yields and quantum efficiency are parameters; the absorbance is not modelled."
  },
  {
   "property": "C81",
   "status": "partial",
   "theorems": [
    "C81_plane",
    "C81_ellipsoid",
    "C81_sphere",
    "C81_cylinder",
    "C81_point_refuted",
    "C81_errors",
    "C81_frame",
    "C81_compose"
   ],
   "note": "Not true of the code in one point: the cylinder documents a point of the space on the axis, but a point with n coordinates gives a surface in n+1 dimensions (C81_point_refuted). Everything else is proved over exact rationals for all dimensions."
  },
  {
   "property": "C82",
   "status": "partial",
   "theorems": [
    "C82_program_partial",
    "C82_solution_partial",
    "C82_nonneg",
    "C82_norm",
    "C82_single_refuted",
    "C82_sparse",
    "C82_sparse_entry",
    "C82_column_refuted",
    "C82_row_refuted"
   ],
   "note": "The equivalence holds except that a single inequality is refused (C82_single_refuted), and a sparse matrix whose last columns or rows are empty loses variables or is refused (C82_column_refuted, C82_row_refuted). The solver itself (cvxopt) is outside the model."
  },
  {
   "property": "C83",
   "status": "partial",
   "theorems": [
    "C83_extrema",
    "C83_maximum",
    "C83_minimum",
    "C83_nothing",
    "C83_window",
    "C83_window_error",
    "C83_centroid",
    "C83_within",
    "C83_symmetric",
    "C83_square",
    "C83_centroid_image_partial",
    "C83_axes_refuted"
   ],
   "note": "Not true of the code for images: the centroid adds the offset along the columns to the row and the other way round (C83_axes_refuted; C83_centroid_image_partial gives what is computed). One dimension and the extrema are proved. The fits of a Gaussian are not modelled."
  },
  {
   "property": "C84",
   "status": "partial",
   "theorems": [
    "C84_names",
    "C84_lists",
    "C84_atmosphere",
    "C84_atmosphere_refuted",
    "C84_material",
    "C84_named",
    "C84_refused",
    "C84_detector_filter",
    "C84_next",
    "C84_overwrite_refuted",
    "C84_unnamed_refuted",
    "C84_cover_refuted",
    "C84_remove_beam",
    "C84_remove_detector",
    "C84_atmosphere_stays_refuted",
    "C84_restored_refuted",
    "C84_transmission",
    "C84_range",
    "C84_detector",
    "C84_efficiency",
    "C84_efficiency_range",
    "C84_air_refuted"
   ],
   "note": "Not true of the code in these points: a filter without a name gets the greatest number in use and replaces that filter (C84_overwrite_refuted, C84_unnamed_refuted, C84_cover_refuted); include_atmosphere of the detector filters is inverted, so the air is left out of the efficiency (C84_atmosphere_refuted, C84_air_refuted) and stays when filters are removed (C84_atmosphere_stays_refuted); a restored solid state detector has lost two attributes (C84_restored_refuted). The rest is proved; exact arithmetic over Coq's reals."
  },
  {
   "property": "C85",
   "status": "partial",
   "theorems": [
    "C85_solidangle",
    "C85_distance",
    "C85_cone",
    "C85_monotone",
    "C85_behind",
    "C85_errors",
    "C85_angles",
    "C85_angles_sign",
    "C85_angles_set",
    "C85_motor",
    "C85_set_distance",
    "C85_set_position",
    "C85_calibrated",
    "C85_set_solidangle",
    "C85_motor_errors",
    "C85_unknown_refuted",
    "C85_restored",
    "C85_built",
    "C85_preset",
    "C85_preset_distances",
    "C85_preset_sign_refuted",
    "C85_preset_unit_refuted",
    "C85_zerodistance",
    "C85_distance_unset",
    "C85_unsaved"
   ],
   "note": "Not true of the code in these points: without a position the distance is a dictionary instead of None and the geometry cannot be saved (C85_unknown_refuted); the presets refuse or ignore a sign (C85_preset_sign_refuted) and take a plain zero distance in mm whatever the unit (C85_preset_unit_refuted). The rest is proved over Coq's reals. The fit of calibrate_fit is not modelled."
  },
  {
   "property": "C86",
   "status": "partial",
   "theorems": [
    "C86_conversions_partial",
    "C86_counts_partial",
    "C86_response",
    "C86_response_errors",
    "C86_no_oscillator",
    "C86_normalise_to_flux",
    "C86_normalise_to_counts",
    "C86_normalise_errors",
    "C86_dark_from_rate",
    "C86_dark_from_current",
    "C86_offset_from_dark",
    "C86_counts_to_current_refuted",
    "C86_dark_from_counts_refuted"
   ],
   "note": "Not true of the code: counts cannot be converted to current or voltage, since op_countstocurrent multiplies a method and countstovoltage passes an argument too many (C86_counts_to_current_refuted), so that calibratedark with counts raises NotImplementedError (C86_dark_from_counts_refuted). Energies and weights are fixed, arrays are treated element by element, units are kinds (SI values)."
  },
  {
   "property": "C87",
   "status": "partial",
   "theorems": [
    "C87_round_to_power",
    "C87_setting_kept",
    "C87_round_to_power_of_base",
    "C87_round_to_multiple",
    "C87_no_rounding",
    "C87_no_setting",
    "C87_resistance_and_current",
    "C87_set_resistance",
    "C87_set_resistance_of_current",
    "C87_set_current",
    "C87_set_current_of_resistance",
    "C87_unknown_voltage",
    "C87_gain_recovered_partial",
    "C87_never_none",
    "C87_negative_gain_refuted",
    "C87_gain_from_counts_refuted"
   ],
   "note": "Not true of the code: gainfromresponse never returns None (C87_never_none), gives negative or NaN gains from unusable responses (C87_negative_gain_refuted), and cannot take counts (C87_gain_from_counts_refuted). The rest is proved; logarithms are exact."
  },
  {
   "property": "C88",
   "status": "partial",
   "theorems": [
    "C88_weights",
    "C88_default_weights",
    "C88_weights_mismatch",
    "C88_sample_weights",
    "C88_charge_one_line_partial",
    "C88_charge_target",
    "C88_charge_many_lines_refuted",
    "C88_simple_many_lines_refuted",
    "C88_solidangle",
    "C88_solidangle_direct_refuted",
    "C88_fit_response",
    "C88_fit_negative_dark",
    "C88_flux_range",
    "C88_fit_fixed_dark",
    "C88_fit_no_points"
   ],
   "note": "Not true of the code: n lines detected directly are counted n times when their charges are equal (C88_charge_many_lines_refuted); simple calibration with n lines gives n times the charge (C88_simple_many_lines_refuted); the calibration of the solid angle has no effect without secondary target (C88_solidangle_direct_refuted). The calibrations of thickness and optics (numerical root finding) are not modelled; weights that sum to zero are not modelled."
  },
  {
   "property": "C89",
   "status": "partial",
   "theorems": [
    "C89_setitem_partial",
    "C89_other_arrays",
    "C89_unknown_method",
    "C89_order_refuted",
    "C89_lists_apart_refuted",
    "C89_add_twice_refuted",
    "C89_newaxis_refuted",
    "C89_broadcast_refuted"
   ],
   "note": "Proved for indices without np.newaxis that satisfy `placed`, lists of equal length, numbers and values of the shape of the selection. Not true of the code otherwise: C89_order_refuted (values written to the wrong elements), C89_lists_apart_refuted, C89_add_twice_refuted, C89_newaxis_refuted, C89_broadcast_refuted. After an error in the loop the earlier assignments remain; the model only tells that there is an error."
  },
  {
   "property": "C90",
   "status": "partial",
   "theorems": [
    "C90_command",
    "C90_nothing_else",
    "C90_unambiguous",
    "C90_cut_short_refuted",
    "C90_fraction_refuted",
    "C90_not_understood_refuted"
   ],
   "note": "Completeness, soundness and uniqueness are proved for all texts; the layout must have a space after the name and an end after the last word. Not true of the code: C90_cut_short_refuted, C90_fraction_refuted, C90_not_understood_refuted. ASCII only: \\d and \\s also match other Unicode characters."
  },
  {
   "property": "C91",
   "status": "partial",
   "theorems": [
    "C91_zapline_values",
    "C91_zapline_range",
    "C91_ascan_values",
    "C91_ascan_range",
    "C91_ascan_pixelsize",
    "C91_no_pixels",
    "C91_zapline_pixelsize_refuted",
    "C91_one_pixel_refuted",
    "C91_dimensions_partial",
    "C91_ascan_dimensions_refuted",
    "C91_mesh_dimensions_refuted",
    "C91_capital_refuted",
    "C91_image_sizes_partial",
    "C91_slow_size_refuted",
    "C91_image_of_one_column_refuted",
    "C91_submap_refuted"
   ],
   "note": "Proved: values, ranges, scan sizes, pixel size of step scans, dimensions of a zapimage, numbers of points of an image. Not true of the code: C91_zapline_pixelsize_refuted, C91_one_pixel_refuted, C91_ascan_dimensions_refuted, C91_mesh_dimensions_refuted, C91_capital_refuted, C91_slow_size_refuted, C91_image_of_one_column_refuted, C91_submap_refuted."
  },
  {
   "property": "C92",
   "status": "partial",
   "theorems": [
    "C92_listed_partial",
    "C92_entries",
    "C92_groups",
    "C92_groups_unique",
    "C92_file_partial",
    "C92_sum2_first_refuted",
    "C92_sum2_drops_refuted",
    "C92_few_repeats_refuted",
    "C92_in_between_refuted"
   ],
   "note": "The list is proved for files in which every scan that counts is a zapline or a SUM with a number of repeats; the grouping is proved for all lists and options. Not true of the code: C92_sum2_first_refuted, C92_sum2_drops_refuted, C92_few_repeats_refuted, C92_in_between_refuted."
  },
  {
   "property": "C93",
   "status": "partial",
   "theorems": [
    "C93_get",
    "C93_get_missing",
    "C93_keys",
    "C93_items",
    "C93_contains",
    "C93_set",
    "C93_delete",
    "C93_update_recursive",
    "C93_pinned_refuted",
    "C93_pop",
    "C93_pop_refuted",
    "C93_clear_refuted",
    "C93_dictionary_refuted",
    "C93_stuck_refuted",
    "C93_fromdict_refuted",
    "C93_isinherited_refuted"
   ],
   "note": "All trees; values are numbers (equality of content hashes as equality of numbers), nodes as values are not modelled. Not true of the code: C93_pinned_refuted, C93_pop_refuted, C93_clear_refuted, C93_dictionary_refuted, C93_stuck_refuted, C93_fromdict_refuted, C93_isinherited_refuted."
  },
  {
   "property": "C94",
   "status": "partial",
   "theorems": [
    "C94_parent",
    "C94_parent_none",
    "C94_parent_below",
    "C94_parent_self",
    "C94_branch",
    "C94_root",
    "C94_down",
    "C94_remove",
    "C94_remove_tree",
    "C94_before",
    "C94_after",
    "C94_before_tree_partial",
    "C94_before_hanging_refuted",
    "C94_before_ancestor_refuted",
    "C94_after_tree",
    "C94_new",
    "C94_new_top_refuted",
    "C94_new_after_refuted"
   ],
   "note": "All trees and nodes. Inserting a node with everything below it before x is proved where it does what it says (C94_before_tree_partial); the remaining cases are C94_before_hanging_refuted and C94_before_ancestor_refuted. Also not true of the code: C94_new_top_refuted, C94_new_after_refuted."
  },
  {
   "property": "C95",
   "status": "partial",
   "theorems": [
    "C95_reset",
    "C95_changed",
    "C95_values",
    "C95_set",
    "C95_annotated",
    "C95_new_refuted",
    "C95_mark_refuted",
    "C95_deleted_refuted",
    "C95_inherited_refuted",
    "C95_dictionary_refuted",
    "C95_marks"
   ],
   "note": "All trees without dictionaries as values and all later states; different contents are taken to have different hashes. Not true of the code: C95_new_refuted, C95_mark_refuted, C95_deleted_refuted, C95_inherited_refuted, C95_dictionary_refuted."
  },
  {
   "property": "C96",
   "status": "partial",
   "theorems": [
    "C96_source",
    "C96_size",
    "C96_read",
    "C96_read_outside",
    "C96_write",
    "C96_write_outside",
    "C96_prepare",
    "C96_copy_partial",
    "C96_single_image_refuted",
    "C96_profile_refuted",
    "C96_dimension_refuted",
    "C96_list_refuted"
   ],
   "note": "All stacks with three dimensions. Datasets with one or two dimensions are accepted but not read as images: C96_single_image_refuted, C96_profile_refuted, C96_dimension_refuted. Arrays of different shapes are accepted in a list: C96_list_refuted. What an array holds after it got another shape is arbitrary in the model."
  },
  {
   "property": "C97",
   "status": "partial",
   "theorems": [
    "C97_names",
    "C97_new",
    "C97_overwrite_partial",
    "C97_overwrite_other",
    "C97_overwrite_none",
    "C97_extension_refuted",
    "C97_some_exist_refuted",
    "C97_group_refuted",
    "C97_files_distinct",
    "C97_files_ordered",
    "C97_files_new_partial",
    "C97_files_end",
    "C97_files_replaced_refuted",
    "C97_files_extension_refuted",
    "C97_files_loop_refuted"
   ],
   "note": "All files and names; HDF5 is modelled as a list of objects with paths, globbing without special characters, the logarithm for the width is exact. Not true of the code: C97_extension_refuted, C97_some_exist_refuted, C97_group_refuted, C97_files_replaced_refuted, C97_files_extension_refuted, C97_files_loop_refuted."
  },
  {
   "property": "C98",
   "status": "partial",
   "theorems": [
    "C98_line_partial",
    "C98_plane_partial",
    "C98_previous",
    "C98_flat_refuted",
    "C98_faint_refuted",
    "C98_rigid_refuted",
    "C98_nan",
    "C98_errors",
    "C98_other_reference"
   ],
   "note": "All images of any size; exact real numbers instead of floating point. The exact translation needs two neighbouring frequencies in each direction and a sum of squares above 1: without texture the translation is wrong (C98_flat_refuted), and a zero correlation counts as 1 (C98_faint_refuted). Rigid and similarity alignment return a constant: C98_rigid_refuted. Displacements by a fraction of a pixel are not covered."
  },
  {
   "property": "C99",
   "status": "partial",
   "theorems": [
    "C99_called_partial",
    "C99_lazy",
    "C99_eager",
    "C99_fails",
    "C99_divmod_refuted",
    "C99_and_refuted",
    "C99_not_refuted",
    "C99_name"
   ],
   "note": "All expressions of the supported operators over any values. A comparison of a value with a lazy function is turned around by Python, so its meaning needs that x<y is y>x (mirrored). divmod, and/or with a value on the left, and not do not do what the property says: C99_divmod_refuted, C99_and_refuted, C99_not_refuted. Attributes other than the operators and the composition of functions are not modelled."
  },
  {
   "property": "C100",
   "status": "partial",
   "theorems": [
    "C100_max",
    "C100_min",
    "C100_displaced",
    "C100_centroid",
    "C100_previous",
    "C100_previous_first",
    "C100_unsupported",
    "C100_nothing",
    "C100_integers",
    "C100_error",
    "C100_zero_refuted",
    "C100_nan_refuted",
    "C100_other_reference"
   ],
   "note": "All images of any size with exact numbers. The Gaussian fit is an arbitrary procedure, so nothing is said about its marker. The minimum and maximum do not ignore missing pixels marked by zero (C100_zero_refuted), nor by a nan other than np.nan in a centroid (C100_nan_refuted). The displacement of the centroid needs the whole square around the maximum in both images; displacements by a fraction of a pixel are not covered."
  },
  {
   "property": "C101",
   "status": "partial",
   "theorems": [
    "C101_centred_partial",
    "C101_offset_partial",
    "C101_range_partial",
    "C101_undisturbed",
    "C101_pieces",
    "C101_crop_refuted",
    "C101_plain_refuted",
    "C101_single_refuted",
    "C101_nothing"
   ],
   "note": "All equidistant axes of two points or more and all measured lines, with exact numbers. The latest begin must come before the expected last point (C38_single_refuted); the interpolation itself is not modelled. With crop the first and last position may be outside of a line by less than one step (C101_crop_refuted); an offset given as a plain number is an error (C101_plain_refuted), and so is an axis of one point (C101_single_refuted)."
  },
  {
   "property": "C102",
   "status": "partial",
   "theorems": [
    "C102_expand_letter",
    "C102_expand_case",
    "C102_expandall",
    "C102_expandall_empty",
    "C102_split_refuted",
    "C102_shrink",
    "C102_shrink_order",
    "C102_shrink_empty",
    "C102_round_trip",
    "C102_pymca",
    "C102_line_name",
    "C102_line_iupac",
    "C102_line_from_name",
    "C102_line_from_code",
    "C102_line_unknown",
    "C102_linename_unknown",
    "C102_line_unknown_code",
    "C102_equality_refuted",
    "C102_all_lines",
    "C102_select_energy",
    "C102_select_shell",
    "C102_energy_own",
    "C102_energy_composite",
    "C102_radrate_own",
    "C102_radrate_composite",
    "C102_shell",
    "C102_shell_missing",
    "C102_group",
    "C102_group_plain",
    "C102_group_refuted",
    "C102_yield",
    "C102_lines_stored",
    "C102_yield_refuted",
    "C102_shell_from_code",
    "C102_shell_from_name",
    "C102_shell_unknown",
    "C102_line_less"
   ],
   "note": "All names, tables and orders of iteration. The data of xraylib are parameters and Shell.factory is represented by the names it returns. Splitting shells loses the others (C102_split_refuted), two names of one line are unequal although both equal its code (C102_equality_refuted), K lines from O and P are in group K (C102_group_refuted) and asking for the yields of the lines changes the yield of the shell (C102_yield_refuted)."
  },
  {
   "property": "C103",
   "status": "partial",
   "theorems": [
    "C103_weights",
    "C103_sum_sources",
    "C103_probabilities",
    "C103_probabilities_density",
    "C103_probabilities_type",
    "C103_rates",
    "C103_rates_type",
    "C103_sorted",
    "C103_sorted_stable",
    "C103_np_max",
    "C103_lines_total",
    "C103_power",
    "C103_power_type",
    "C103_compton",
    "C103_no_angle",
    "C103_dict_refuted",
    "C103_energysource_refuted",
    "C103_groupspectra_refuted",
    "C103_groups",
    "C103_lineinfo",
    "C103_channel",
    "C103_channel_low",
    "C103_channel_back",
    "C103_channel_mono",
    "C103_channels",
    "C103_energies",
    "C103_limits",
    "C103_no_limits",
    "C103_calibration",
    "C103_sum",
    "C103_sum_type",
    "C103_sum_function",
    "C103_sum_frozen",
    "C103_shared_refuted",
    "C103_half_refuted"
   ],
   "note": "Profiles, plots, noise and division by a zero sum of weights are not modelled; numbers are exact; lines with several values outside of scattering are not described by lineinfo."
  },
  {
   "property": "C104",
   "status": "partial",
   "theorems": [
    "C104_devices_agree",
    "C104_new_devices_agree",
    "C104_failures_change_nothing_partial",
    "C104_geometries",
    "C104_one_geometry",
    "C104_positions",
    "C104_state",
    "C104_equal",
    "C104_equal_refuted",
    "C104_reference_partial",
    "C104_normalise_to_flux",
    "C104_normalise_to_counts",
    "C104_normalise_without_diode",
    "C104_number_as_flux_refuted",
    "C104_quantification_refuted",
    "C104_quantification_without_geometry",
    "C104_flux_before_sample",
    "C104_flux_after_sample",
    "C104_flux_errors"
   ],
   "note": "Refuted: without default exposure time a geometry is not equal to itself (NaN); the ValueError of the reference setter is unreachable (TypeError of pint); a plain number as flux reference is always counts; quantinfo fails for every geometry (no getxrfdistance); a failing assignment of XRF geometries loses the previous ones. Missing: weights and energies (fixed), plots, reading of spec files, shared devices."
  },
  {
   "property": "C105",
   "status": "partial",
   "theorems": [
    "C105_validated_data",
    "C105_currents_at_id21_refuted",
    "C105_response_for_gain",
    "C105_close",
    "C105_gain",
    "C105_different_gains_refuted",
    "C105_usage_unknown",
    "C105_device_used",
    "C105_unused_device_refuted",
    "C105_dark_is_optional_refuted",
    "C105_prepared",
    "C105_device_from_motors",
    "C105_counters",
    "C105_metadata_refuted",
    "C105_location"
   ],
   "note": "Refuted: currents without unit at ID21 (unit Hz), differing gains below 1e-8 are not seen, a device of another class is not replaced and an unused device not removed when resetting, calibrate_diodes needs the optional dark, metadata lost in the state and ignored by equality. Missing: reading spec files, the fits of the calibration, units other than those of the dimensions."
  },
  {
   "property": "C106",
   "status": "partial",
   "theorems": [
    "C106_magnitude",
    "C106_magnitudes",
    "C106_magnitudes_of_a_quantity",
    "C106_magnitude_refused",
    "C106_number_taken_in_unit",
    "C106_numbers_taken_in_unit",
    "C106_quantity_in_unit",
    "C106_quantities_in_unit",
    "C106_quantity_in_unit_refused",
    "C106_array",
    "C106_array_refused",
    "C106_array_of_one",
    "C106_scalar_restored",
    "C106_array_of_array",
    "C106_empty_array_refuted",
    "C106_quantity_scalar",
    "C106_quantity_default",
    "C106_quantity_array",
    "C106_quantity_numbers",
    "C106_quantity_quantities",
    "C106_quantity_mixed",
    "C106_quantity_number_first",
    "C106_units_when_not_present_refuted",
    "C106_like_units",
    "C106_like_number",
    "C106_like_quantity",
    "C106_like_other_dimension",
    "C106_like_different_units",
    "C106_first_unit",
    "C106_first_unit_array",
    "C106_no_unit",
    "C106_operator_numbers",
    "C106_operator_quantities",
    "C106_operator_dimensions",
    "C106_operator_number_right",
    "C106_operator_symmetry_refuted"
   ],
   "note": "Refuted: empty lists raise StopIteration or IndexError, dimensionless quantities behind a plain number get the given units, a number on the left of a quantity is refused by operators while a number on the right is accepted. Missing: arrays of more than one dimension and of dimension zero, sets, uncertainties, conversions that are not proportional (spectroscopy, temperature)."
  },
  {
   "property": "C107",
   "status": "partial",
   "theorems": [
    "C107_lines",
    "C107_intensities",
    "C107_number_of_lines",
    "C107_total",
    "C107_created",
    "C107_ratios",
    "C107_sample",
    "C107_sample_between",
    "C107_sample_constant",
    "C107_sample_empty_table",
    "C107_sample_dark",
    "C107_no_intensities_refuted",
    "C107_ratios_zero_refuted",
    "C107_sample_zero_refuted",
    "C107_no_lines_given",
    "C107_dark",
    "C107_dark_lines_refuted",
    "C107_dark_add_refuted",
    "C107_dark_operator_refuted"
   ],
   "note": "Refuted: without intensities the ratios and samples are not finite, a dark spectrum has one line, adding to a dark spectrum gives None and its method adds lines. Missing: units of the lines other than a given conversion, intensities with another unit, floating point rounding."
  },
  {
   "property": "C108",
   "status": "partial",
   "theorems": [
    "C108_rebin",
    "C108_rebin_conserves",
    "C108_rebin_zero",
    "C108_raw",
    "C108_intensity",
    "C108_recovered",
    "C108_no_image",
    "C108_not_exposed",
    "C108_axis",
    "C108_axis_region",
    "C108_axis_zero",
    "C108_axes",
    "C108_axis_outside_refuted",
    "C108_axis_reversed",
    "C108_header_region",
    "C108_no_header_region",
    "C108_header_region_refuted",
    "C108_library",
    "C108_no_data",
    "C108_no_data_error",
    "C108_normalized",
    "C108_not_normalized",
    "C108_order",
    "C108_flats_refuted",
    "C108_no_flat"
   ],
   "note": "Refuted: a region that ends outside the image gives axes longer than the image, an incomplete region in a header is an IndexError, a key without flats (or with one flat when taken before and after) stops the process with a TypeError. Missing: reading files and headers, the negative logarithm, broadcasting of images of different shape, floating point rounding."
  },
  {
   "property": "C109",
   "status": "partial",
   "theorems": [
    "C109_sum",
    "C109_max",
    "C109_nansum",
    "C109_value",
    "C109_mean_refuted",
    "C109_infinite_refuted"
   ],
   "note": "merging of sums, sums without NaN and maxima, and the value of expressions built step by step; merging means changes the value (refuted), and infinities in sums without NaN (refuted); shapes of images and reading of files are not modelled"
  },
  {
   "property": "C110",
   "status": "partial",
   "theorems": [
    "C110_groups_partial",
    "C110_all",
    "C110_text_refuted",
    "C110_empty_refuted",
    "C110_repeated_refuted",
    "C110_added",
    "C110_total",
    "C110_function",
    "C110_value",
    "C110_sum",
    "C110_sorted",
    "C110_rows"
   ],
   "note": "plan of the sums for detectors given by number, results of one and two levels of sums, their values and corrections, sorting and export; sums given by name in a list, empty groups and repeated detectors are refuted; fitting and the writing of files are not modelled"
  },
  {
   "property": "C111",
   "status": "partial",
   "theorems": [
    "C111_axes",
    "C111_range",
    "C111_range_degenerate",
    "C111_flip",
    "C111_flip_order",
    "C111_flip_increasing",
    "C111_flip_twice_refuted",
    "C111_flip_mirrored_refuted",
    "C111_originzero",
    "C111_originzero_total",
    "C111_originzero_twice_refuted",
    "C111_reset_refuted",
    "C111_originreset_refuted",
    "C111_limits",
    "C111_pixel",
    "C111_single_refuted",
    "C111_empty",
    "C111_yunit_refuted",
    "C111_aspect_transpose",
    "C111_aspect",
    "C111_modify_x",
    "C111_modify_y",
    "C111_modify_decreasing_refuted"
   ],
   "note": "The axes, new ranges, single flips, display limits, pixel positions, aspect ratios and scene_modifyaxes are proved. The *_refuted theorems show that a mirrored axis cannot be flipped back while keeping its order, that originzero is only right without an earlier offset, that resetting the range moves the second axis by one, that resetting the origin negates the offset, that images of one row or column have no limits, that the unit text of y is the one of x and that a decreasing axis is ignored without a flip. Units of one axis are not mixed; rounding and drawing are not modelled."
  },
  {
   "property": "C112",
   "status": "partial",
   "theorems": [
    "C112_channels",
    "C112_channels_list",
    "C112_channels_list_total",
    "C112_channels_default_refuted",
    "C112_channels_setting_refuted",
    "C112_channels_tuple",
    "C112_data",
    "C112_data_error",
    "C112_data_plain",
    "C112_label",
    "C112_vmin",
    "C112_vmax",
    "C112_vminmax_none",
    "C112_selfscale",
    "C112_global_low",
    "C112_global_high_refuted",
    "C112_global_high_any_refuted",
    "C112_global_refuted",
    "C112_global_total",
    "C112_absolute",
    "C112_unscaled",
    "C112_global_empty"
   ],
   "note": "Channels given as lists, data of channels, limits of scenes, scaling of one image and scaling with a lower fraction are proved. The *_refuted theorems show that images with two channels fail by default, that reading two channels changes the setting, that an upper fraction alone fails and that with both fractions the upper limit is at their sum. Percentiles (ptrim) and colorbar units are not modelled."
  },
  {
   "property": "C113",
   "status": "partial",
   "theorems": [
    "C113_detectors",
    "C113_scans_refuted",
    "C113_all",
    "C113_number_partial",
    "C113_few_refuted",
    "C113_detnums",
    "C113_sum",
    "C113_single",
    "C113_nothing",
    "C113_corrected",
    "C113_raw"
   ],
   "note": "With one scan name and equally many files per detector the groups are the files of each detector; no file is lost. C113_scans_refuted: with as many scan names as detectors the groups are scans instead of detectors. C113_few_refuted: fewer files than detectors is an error. The number of groups is only bounded from below, and the example shows it can be larger. The files found on disk are a parameter; the code searches them by a mask with the data directory and the scan name, whether outname and the scan name given to PyMca match that mask is not modelled. PyMca and the writing of files are not modelled."
  },
  {
   "property": "C114",
   "status": "partial",
   "theorems": [
    "C114_time",
    "C114_progress",
    "C114_finished",
    "C114_fine",
    "C114_start_refuted",
    "C114_error",
    "C114_days_refuted"
   ],
   "note": "Times, proportions, the end and fine steps are proved with exact numbers. C114_start_refuted: printing before the first step is a ZeroDivisionError; C114_days_refuted: whole days of elapsed time are forgotten. Rounding and logging are not modelled."
  },
  {
   "property": "C115",
   "status": "partial",
   "theorems": [
    "C115_item",
    "C115_outside",
    "C115_values_partial",
    "C115_values_fail_refuted",
    "C115_values_transposed_refuted",
    "C115_stack",
    "C115_signal_stack_refuted",
    "C115_signal_range_refuted",
    "C115_signal_default_refuted",
    "C115_inplace_refuted"
   ],
   "note": "Items, errors of indices and the stack dimensions of grids of signals are proved. The values are the items when the stack dimension is the first; C115_values_*_refuted: with the second dimension they fail or are transposed. C115_signal_*_refuted: the stack dimensions of the grid of one signal are shifted although no axis was added. C115_inplace_refuted: in-place operations return None. Slices (see the properties on indexing), files, negative dimensions and operations with arrays are not modelled here."
  },
  {
   "property": "C116",
   "status": "partial",
   "theorems": [
    "C116_items",
    "C116_image",
    "C116_all_items",
    "C116_all_items_refuted",
    "C116_list_refuted",
    "C116_default_refuted",
    "C116_display",
    "C116_display_total",
    "C116_shape",
    "C116_order",
    "C116_names_refuted",
    "C116_spectra_partial",
    "C116_spectra_refuted"
   ],
   "note": "Items given as values or tuples, their images, channels and labels, the order and shape of the axes and spectra with labels for each file are proved. The *_refuted theorems show that without items a grid with two stack dimensions cannot be displayed, that lists are not accepted as items, that the default -1 of the second stack axis is the first image when its coordinates are positive and not integers, that the names given for the axes are ignored and that without labels only the first file is used. With one image axis the transposition is not modelled; instruments, units, interpolation and reading of files are not modelled."
  },
  {
   "property": "C117",
   "status": "partial",
   "theorems": [
    "C117_sources",
    "C117_entries",
    "C117_order",
    "C117_order_nan",
    "C117_incomplete_refuted",
    "C117_dropped_refuted",
    "C117_fscan2d",
    "C117_l2scan",
    "C117_other_scan",
    "C117_title_errors",
    "C117_first_entry",
    "C117_shape_refuted",
    "C117_no_shape_refuted",
    "C117_axes",
    "C117_no_positioner_refuted",
    "C117_reference_names",
    "C117_reference_unknown",
    "C117_reference_as_given",
    "C117_reference_fraction",
    "C117_reference_end_refuted",
    "C117_raw_none",
    "C117_raw_both",
    "C117_raw_one"
   ],
   "note": "Grouping, ordering, titles, sizes of axes and parameters of the alignment are proved in general; violations of the statement are stated as _refuted theorems. Values of floats are rationals and the sort is stable (numpy's default may order equal positions differently)."
  },
  {
   "property": "C118",
   "status": "partial",
   "theorems": [
    "C118_layout",
    "C118_scan",
    "C118_scan_saved",
    "C118_channels",
    "C118_calibration_refuted",
    "C118_saved_unreadable_refuted",
    "C118_read",
    "C118_bad_channels"
   ],
   "note": "Layout, reader, header and the reading without calibration are proved for all spectra; reading with a calibration is refuted in general. Formatting of numbers and the reading of files by PyMca are not modelled."
  },
  {
   "property": "C119",
   "status": "partial",
   "theorems": [
    "C119_kept",
    "C119_filtered",
    "C119_missing_refuted",
    "C119_known_class",
    "C119_unknown_class",
    "C119_no_output",
    "C119_process",
    "C119_path_refuted",
    "C119_replace",
    "C119_other_nan_refuted",
    "C119_process_known",
    "C119_given_twice"
   ],
   "note": "Proved for all parameters, with the required, optional and default parameters of each class as arguments; violations of the statement are _refuted theorems. Dependencies and the parent of the output are only present or not."
  },
  {
   "property": "C120",
   "status": "partial",
   "theorems": [
    "C120_rows",
    "C120_columns",
    "C120_diagonal",
    "C120_contiguous",
    "C120_wrong_rank",
    "C120_wrong_shape",
    "C120_one_dimension_refuted"
   ],
   "note": "Proved for all shapes, repetitions and strides with distinct places; sources with one dimension are refuted. Strides are in elements and the first element is at offset 0."
  },
  {
   "property": "C121",
   "status": "partial",
   "theorems": [
    "C121_selected",
    "C121_no_name",
    "C121_first_refuted",
    "C121_marked",
    "C121_signal",
    "C121_lost_refuted"
   ],
   "note": "Proved for all lists of plots and all depths; violations of the statement are _refuted theorems. Time stamps are left out; a path is the list of its groups."
  },
  {
   "property": "C122",
   "status": "partial",
   "theorems": [
    "C122_matching",
    "C122_matching_once_refuted",
    "C122_sum",
    "C122_integer_refuted",
    "C122_dtcor",
    "C122_dtcor_twice_refuted",
    "C122_link",
    "C122_link_refuted",
    "C122_errors",
    "C122_no_livetime",
    "C122_no_livetime_dtcor",
    "C122_events_refuted",
    "C122_counter_refuted"
   ],
   "note": "Proved for all detectors, counts, live times and blocks over exact rationals; violations of the statement are _refuted theorems. Files, links, rounding and copies of counters are left out."
  },
  {
   "property": "C123",
   "status": "partial",
   "theorems": [
    "C123_classes",
    "C123_configurations",
    "C123_errors",
    "C123_sum",
    "C123_counters_refuted",
    "C123_counter_shapes"
   ],
   "note": "Proved for every fit function and all detectors, configurations and counters; violations of the statement are part of C123_sum (lost signals, sums of mass fractions) and _refuted theorems. Files, renaming of outputs and broadcasting of shapes are left out."
  },
  {
   "property": "C124",
   "status": "partial",
   "theorems": [
    "C124_groups",
    "C124_sound",
    "C124_double",
    "C124_axes",
    "C124_no_axes_refuted",
    "C124_other",
    "C124_data",
    "C124_name"
   ],
   "note": "Proved for all lists of plots and every comparison of axes; violations of the statement are C124_no_axes_refuted and C124_name. Reading of files is left out."
  },
  {
   "property": "C125",
   "status": "partial",
   "theorems": [
    "C125_all",
    "C125_selected",
    "C125_number_refuted",
    "C125_range_refuted",
    "C125_printed",
    "C125_sequential"
   ],
   "note": "Proved for all jobs, options and tasks; violations of the statement are _refuted theorems. Parsing of the command line, logging and run_parallel are left out."
  },
  {
   "property": "C126",
   "status": "partial",
   "theorems": [
    "C126_set",
    "C126_restore",
    "C126_errors",
    "C126_above_refuted",
    "C126_thickness",
    "C126_full_thickness",
    "C126_missing"
   ],
   "note": "Proved for all fractions and percentages over exact rationals; the violation is C126_above_refuted. Conversions between mass, mole and volume fractions are those of C25; cost functions and optimisation are left out."
  },
  {
   "property": "C127",
   "status": "partial",
   "theorems": [
    "C127_array",
    "C127_number",
    "C127_shapes"
   ],
   "note": "Proved for all shapes and values, given that xraylib_np agrees with xraylib when it returns. Units, data frames and applypost=False are left out."
  }
 ]
}