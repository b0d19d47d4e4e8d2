{
 "claims": [
  {
   "property": "C01",
   "status": "proved",
   "theorems": [
    "C01_apply_index_int",
    "C01_apply_index_mask",
    "C01_apply_index_raises"
   ],
   "note": ""
  },
  {
   "property": "C02",
   "status": "proved",
   "theorems": [
    "C02_history_consistent",
    "C02_history_subset",
    "C02_history_sorted"
   ],
   "note": "Modelled with a scipy that accepts rotations without rows; with the pinned one nothing changes unless no pose is left (C134)."
  },
  {
   "property": "C03",
   "status": "proved",
   "theorems": [
    "C03_constructor_raises",
    "C03_constructor_consistent",
    "C03_empty_positions_refuted"
   ],
   "note": "The last theorem shows the hypothesis of at least one position is needed."
  },
  {
   "property": "C04",
   "status": "proved",
   "theorems": [
    "C04_crop"
   ],
   "note": "Modelled with a scipy that accepts rotations without rows; with the pinned one nothing changes unless no pose is left (C134)."
  },
  {
   "property": "C05",
   "status": "proved",
   "theorems": [
    "C05_common_time_span",
    "C05_common_time_span_raises",
    "C05_common_time_span_order"
   ],
   "note": ""
  },
  {
   "property": "C06",
   "status": "proved",
   "theorems": [
    "C06_intersect",
    "C06_intersect_empty"
   ],
   "note": "Modelled with a scipy that accepts rotations without rows; with the pinned one nothing changes unless no pose is left (C134)."
  },
  {
   "property": "C07",
   "status": "proved",
   "theorems": [
    "C07_match_timestamps"
   ],
   "note": "Modelled with a scipy that accepts rotations without rows; with the pinned one nothing changes unless no pose is left (C134)."
  },
  {
   "property": "C08",
   "status": "proved",
   "theorems": [
    "C08_interpolate_timestamps",
    "C08_interpolate_positions",
    "C08_interpolate_affine",
    "C08_interpolate_no_extrapolation",
    "C08_interpolate_rotations",
    "C08_interpolate_all_rotations",
    "C08_interpolate_arc_lengths"
   ],
   "note": "Reals instead of floats."
  },
  {
   "property": "C09",
   "status": "partial",
   "theorems": [
    "C09_interpolate_consistent_partial",
    "C09_interpolate_consistent_refuted"
   ],
   "note": "REFUTED: if no requested timestamp lies in the time range the rotations keep their old length and speeds have one entry. True whenever a timestamp remains."
  },
  {
   "property": "C10",
   "status": "proved",
   "theorems": [
    "C10_arc_lengths",
    "C10_arc_lengths_similarity",
    "C10_arc_lengths_isometry"
   ],
   "note": ""
  },
  {
   "property": "C11",
   "status": "proved",
   "theorems": [
    "C11_sorted_view",
    "C11_sorted_keys",
    "C11_approximate"
   ],
   "note": ""
  },
  {
   "property": "C12",
   "status": "proved",
   "theorems": [
    "C12_methods",
    "C12_inplace_false_unchanged",
    "C12_inplace_false_result",
    "C12_inplace_true",
    "C12_copy",
    "C12_history"
   ],
   "note": "For every method body made of reads, assignments and exceptions; C12_methods lists the modelled methods."
  },
  {
   "property": "C13",
   "status": "partial",
   "theorems": [
    "C13_no_interference_partial",
    "C13_shared_pointset_refuted"
   ],
   "note": "REFUTED: the constructor keeps a reference to the PointSet, two trajectories built from one PointSet interfere. True when no PointSet is shared, and no method introduces sharing."
  },
  {
   "property": "C14",
   "status": "proved",
   "theorems": [
    "C14_apply_transformation",
    "C14_positions",
    "C14_compose",
    "C14_compose_positions",
    "C14_identity",
    "C14_inverse",
    "C14_preserves"
   ],
   "note": "Rotations are seen through their matrix (rotation library contract, shown satisfiable). Pose statements for rigid T; positions for every 4x4 T."
  },
  {
   "property": "C15",
   "status": "partial",
   "theorems": [
    "C15_apply_transformation_partial",
    "C15_gains_orientation_refuted",
    "C15_derived_quantities_refuted"
   ],
   "note": "REFUTED: every orientation-less trajectory gains orientations; arc lengths and speeds stay stale. Arc lengths remain correct for rigid motions."
  },
  {
   "property": "C16",
   "status": "partial",
   "theorems": [
    "C16_apply_alignment_partial",
    "C16_apply_alignment_inplace_refuted"
   ],
   "note": "REFUTED: inplace=True always raises UnboundLocalError. inplace=False works for every consistent trajectory."
  },
  {
   "property": "C17",
   "status": "proved",
   "theorems": [
    "C17_apply_alignment",
    "C17_misclosure",
    "C17_defaults",
    "C17_leverarm_apply_to"
   ],
   "note": "Rotation part of the aligned pose stated for scale 1 (from_matrix on scaled matrices is library-version dependent)."
  },
  {
   "property": "C18",
   "status": "partial",
   "theorems": [
    "C18_adopt_first_is_noop",
    "C18_adopt_first_pose_refuted"
   ],
   "note": "REFUTED: the argument is overwritten by the receiver, the calls never change it."
  },
  {
   "property": "C19",
   "status": "proved",
   "theorems": [
    "C19_spatial",
    "C19_temporal",
    "C19_equal_length",
    "C19_no_test_poses",
    "C19_settings",
    "knn_contract_satisfiable"
   ],
   "note": "For every KD tree query that satisfies the nearest-neighbour contract, and max_distance >= 0."
  },
  {
   "property": "C20",
   "status": "partial",
   "theorems": [
    "C20_best_partner_refuted",
    "C20_all_kept_partial"
   ],
   "note": "REFUTED: the first, not the closest, competing test pose is kept and the others are dropped. All test poses are kept when their nearest reference poses differ."
  },
  {
   "property": "C21",
   "status": "proved",
   "theorems": [
    "C21_temporal_sorted"
   ],
   "note": ""
  },
  {
   "property": "C22",
   "status": "proved",
   "theorems": [
    "C22_interpolation_sampling",
    "C22_no_extrapolation",
    "C22_consistent"
   ],
   "note": ""
  },
  {
   "property": "C23",
   "status": "partial",
   "theorems": [
    "C23_metrics_compare_matched_partial",
    "C23_spatial_interpolation_refuted"
   ],
   "note": "REFUTED for spatial interpolation: the metrics discard the returned matched trajectories. True for the other methods."
  },
  {
   "property": "C24",
   "status": "proved",
   "theorems": [
    "C24_projection",
    "C24_spatial_interpolation"
   ],
   "note": ""
  },
  {
   "property": "C25",
   "status": "proved",
   "theorems": [
    "C25_merge",
    "C25_empty_list"
   ],
   "note": "Modelled with a scipy that accepts rotations without rows; with the pinned one nothing changes unless no pose is left (C134)."
  },
  {
   "property": "C26",
   "status": "partial",
   "theorems": [
    "C26_successive_partial",
    "C26_arc_lengths_refuted"
   ],
   "note": "REFUTED: arc lengths are computed on the concatenation before sorting. True when the inputs follow one another in time."
  },
  {
   "property": "C27",
   "status": "proved",
   "theorems": [
    "C27_sort_permutation",
    "C27_sort_path",
    "C27_sort_spatially"
   ],
   "note": "For every triangulation, spanning tree and breadth-first search meeting mst_contract; the last clause (sorting by arc length reproduces the path) needs consecutive smoothed points to differ."
  },
  {
   "property": "C28",
   "status": "proved",
   "theorems": [
    "C28_helmert_equations",
    "C28_helmert_similarity"
   ],
   "note": ""
  },
  {
   "property": "C29",
   "status": "proved",
   "theorems": [
    "C29_inverse",
    "C29_invariant",
    "C29_apply_transformation",
    "C29_entries",
    "C29_entries_plain"
   ],
   "note": "An entry over a zero distance is a division by zero and has no value (see C31)."
  },
  {
   "property": "C30",
   "status": "proved",
   "theorems": [
    "C30_all_pairs",
    "C30_entries"
   ],
   "note": ""
  },
  {
   "property": "C31",
   "status": "partial",
   "theorems": [
    "C31_consecutive_partial",
    "C31_consecutive_refuted"
   ],
   "note": "REFUTED: when a step of the reference is longer than the pair distance a pose is paired with itself and the errors are divided by zero. True when no step is longer."
  },
  {
   "property": "C32",
   "status": "partial",
   "theorems": [
    "C32_pair_distances_partial",
    "C32_pair_distances_refuted"
   ],
   "note": "REFUTED: the largest evaluated distance exceeds pair_max_distance unless the range is a whole number of steps."
  },
  {
   "property": "C33",
   "status": "proved",
   "theorems": [
    "C33_deviations",
    "C33_self",
    "C33_swap",
    "C33_lengths"
   ],
   "note": ""
  },
  {
   "property": "C34",
   "status": "partial",
   "theorems": [
    "C34_decomposition_partial",
    "C34_decomposition_refuted",
    "C34_standing_refuted"
   ],
   "note": "REFUTED: the horizontal deviation is lost when the test point lies in the vertical plane through a sloped track line, and where the reference stands still. Orthogonal decomposition otherwise."
  },
  {
   "property": "C35",
   "status": "proved",
   "theorems": [
    "C35_statistics",
    "C35_median",
    "C35_empty"
   ],
   "note": ""
  },
  {
   "property": "C36",
   "status": "proved",
   "theorems": [
    "C36_values",
    "C36_all_values",
    "C36_covariance",
    "C36_disabled_report_default"
   ],
   "note": "A covariance matrix of the wrong shape raises AlignmentParametersError, values of the wrong length ValueError."
  },
  {
   "property": "C37",
   "status": "proved",
   "theorems": [
    "C37_settings",
    "C37_columns",
    "C37_components"
   ],
   "note": ""
  },
  {
   "property": "C38",
   "status": "partial",
   "theorems": [
    "C38_from_settings_refuted",
    "C38_from_settings_partial"
   ],
   "note": "REFUTED: from_settings uses trans_x for all three translations and ignores the speed axes for the time shift. The partial theorem gives the exact condition under which it follows the settings."
  },
  {
   "property": "C39",
   "status": "partial",
   "theorems": [
    "C39_parameter_file_refuted",
    "C39_result_file_partial",
    "C39_append_refuted"
   ],
   "note": "REFUTED: no file written by AlignmentParameters.to_file can be read back, and writing a result to an existing file makes it unreadable. A result written to a new file is read back up to the written precision."
  },
  {
   "property": "C40",
   "status": "proved",
   "theorems": [
    "C40_round_trip",
    "C40_file_round_trip",
    "C40_extra_keys",
    "C40_missing_key",
    "C40_only_value_errors",
    "C40_attributes",
    "C40_nested_not_checked_refuted"
   ],
   "note": "The round trip, the handling of extra and missing keys and the exceptions are proved in full. Beyond the claim, C40_nested_not_checked_refuted shows that reading accepts non-dictionaries in place of nested settings."
  },
  {
   "property": "C41",
   "status": "partial",
   "theorems": [
    "C41_update_atomic_refuted",
    "C41_update_is_reading_partial",
    "C41_failed_update_partial",
    "C41_first_missing_partial"
   ],
   "note": "REFUTED: attributes before the missing one are already changed. The partial theorems say exactly what a failed update leaves behind."
  },
  {
   "property": "C42",
   "status": "proved",
   "theorems": [
    "C42_build",
    "C42_epochs",
    "C42_groups",
    "C42_variances",
    "C42_write_read",
    "C42_read_back",
    "C42_write_refused",
    "C42_estimated",
    "C42_history",
    "C42_wrong_rows",
    "C42_one_row"
   ],
   "note": ""
  },
  {
   "property": "C43",
   "status": "partial",
   "theorems": [
    "C43_unused_axis_refuted",
    "C43_speed_partial"
   ],
   "note": "REFUTED: the statement blanking unused speed axes has no effect. Proved: which speeds are observed for every combination of switches."
  },
  {
   "property": "C44",
   "status": "partial",
   "theorems": [
    "C44_window_refuted",
    "C44_window_partial"
   ],
   "note": "REFUTED for every subset size: the subset starts one epoch before the most variable window and wraps to the last pose. Proved: exactly which epochs are used."
  },
  {
   "property": "C45",
   "status": "partial",
   "theorems": [
    "C45_bounded",
    "C45_reported",
    "C45_initial",
    "C45_nothing",
    "C45_own_threshold_partial",
    "C45_own_threshold_refuted",
    "C45_nan_refuted"
   ],
   "note": "Termination, what is reported and what is returned are proved for every solver. REFUTED for the own threshold: updates are compared with the thresholds of the first parameters instead of the estimated ones, and updates that are not a number count as converged."
  },
  {
   "property": "C46",
   "status": "proved",
   "theorems": [
    "C46_last_wins",
    "C46_accepts",
    "C46_written",
    "C46_failure"
   ],
   "note": "C46_accepts gives the exact condition under which parsing a header raises: a numeric tag without a number; C46_failure which exception and at which line."
  },
  {
   "property": "C47",
   "status": "partial",
   "theorems": [
    "C47_round_trip_partial",
    "C47_append",
    "C47_empty_refuted",
    "C47_name_refuted",
    "C47_writable"
   ],
   "note": "Proved for non-empty trajectories with a one-line name; quaternion components to 1.5e-9 because they are normalised again. REFUTED for empty trajectories (the file cannot be read) and for names with line breaks (they can change the header)."
  },
  {
   "property": "C48",
   "status": "partial",
   "theorems": [
    "C48_unix",
    "C48_numbered",
    "C48_gps_partial",
    "C48_gps_zone_refuted",
    "C48_gps_count",
    "C48_datetime_partial",
    "C48_datetime_refuted",
    "C48_any_case_partial"
   ],
   "note": "REFUTED: GPS seconds of week depend on the time zone of the machine, date texts are cut to the length of the first one, and the numbering is not shifted by the time offset."
  },
  {
   "property": "C49",
   "status": "partial",
   "theorems": [
    "C49_accepted",
    "C49_proper_partial",
    "C49_converts_partial",
    "C49_refuted",
    "C49_applied",
    "C49_any_case",
    "C49_same_matrix"
   ],
   "note": "REFUTED: six of the twelve accepted names give reflections, and of the proper ones only enu and ned give the rotation to ENU (the others its inverse)."
  },
  {
   "property": "C50",
   "status": "partial",
   "theorems": [
    "C50_comparison",
    "C50_counts",
    "C50_metrics",
    "C50_round_trip_partial",
    "C50_collision",
    "C50_resolution_refuted",
    "C50_unit_refuted",
    "C50_append_refuted"
   ],
   "note": "Proved: matching lengths for every comparison, the counts, the statistics, and the round trip for mean distances more than 1e-12 apart. REFUTED: mean distances closer than the twelve decimals of the file are merged; a result with the unit none cannot be read; a second result appended to the file (the default mode) is read as the data of the first."
  },
  {
   "property": "C51",
   "status": "partial",
   "theorems": [
    "C51_fit",
    "C51_total",
    "C51_few",
    "C51_basis",
    "C51_eval",
    "C51_nodes",
    "C51_merged_refuted"
   ],
   "note": "Proved: the partition, its uniqueness, optimality of the fit, the basis functions and the evaluation. REFUTED: when observations are left over for the last interval its cubic is fitted over a later range than its interval limits, so the value at the limit is the fitted value of another observation."
  },
  {
   "property": "C52",
   "status": "partial",
   "theorems": [
    "C52_window_partial",
    "C52_total",
    "C52_constant",
    "C52_last_ignored_refuted"
   ],
   "note": "REFUTED: the last orientation is never used, and the window stops one short after the pose."
  },
  {
   "property": "C53",
   "status": "partial",
   "theorems": [
    "C53_partition",
    "C53_total",
    "C53_same_cell",
    "C53_separate_partial",
    "C53_collision_refuted"
   ],
   "note": "Separation proved for extents up to nine voxels in y and z. REFUTED beyond: the identifier strings collide."
  },
  {
   "property": "C54",
   "status": "partial",
   "theorems": [
    "C54_short",
    "C54_zero_size",
    "C54_chunks_partial",
    "C54_general",
    "C54_size",
    "C54_zero_refuted",
    "C54_columns_refuted"
   ],
   "note": "Proved for data without zeros, and exactly what happens with zeros. REFUTED: values equal to zero are treated as missing, so the mean of a part is wrong, parts of zeros vanish (columns of one table get different lengths) and data of zeros raise ValueError."
  },
  {
   "property": "C55",
   "status": "partial",
   "theorems": [
    "C55_metres",
    "C55_effect_partial",
    "C55_millimetres_refuted"
   ],
   "note": "REFUTED: every report in millimetres multiplies the deviations of the result by 1000 in place."
  },
  {
   "property": "C56",
   "status": "proved",
   "theorems": [
    "C56_rndodd"
   ],
   "note": ""
  },
  {
   "property": "C57",
   "status": "partial",
   "theorems": [
    "C57_failing_call_partial",
    "C57_failing_interpolate_refuted"
   ],
   "note": "REFUTED for interpolate: positions are already replaced when the rotation interpolation raises. True for crop, match_timestamps, apply_index, intersect with a scipy that accepts rotations without rows; with the pinned one see C134."
  },
  {
   "property": "C58",
   "status": "proved",
   "theorems": [
    "C58_least_squares_line"
   ],
   "note": "Under the contract that eigh returns a unit vector maximising the quadratic form of the covariance matrix."
  },
  {
   "property": "C59",
   "status": "proved",
   "theorems": [
    "C59_no_limit",
    "C59_too_few"
   ],
   "note": ""
  },
  {
   "property": "C60",
   "status": "partial",
   "theorems": [
    "C60_discard_refuted",
    "C60_discard_partial"
   ],
   "note": "REFUTED: ValueError whenever the highest point was dropped by the triangulation. True otherwise."
  },
  {
   "property": "C61",
   "status": "partial",
   "theorems": [
    "C61_along_track_partial",
    "C61_along_track_refuted"
   ],
   "note": "REFUTED at the last pose: the sign is positive when the test point is further behind the last but one reference pose than the length of the last segment."
  },
  {
   "property": "C62",
   "status": "proved",
   "theorems": [
    "C62_rms_components"
   ],
   "note": ""
  },
  {
   "property": "C63",
   "status": "proved",
   "theorems": [
    "C63_common_motion"
   ],
   "note": ""
  },
  {
   "property": "C64",
   "status": "proved",
   "theorems": [
    "C64_relative_outcome",
    "C64_relative_result",
    "C64_relative_rejects"
   ],
   "note": ""
  },
  {
   "property": "C65",
   "status": "partial",
   "theorems": [
    "C65_rejected_matrix_refuted",
    "C65_shape_partial"
   ],
   "note": "REFUTED: a rejected covariance matrix is stored. Proved for histories that only give matrices of an admissible size."
  },
  {
   "property": "C66",
   "status": "partial",
   "theorems": [
    "C66_variances_agree_refuted",
    "C66_no_enabling_partial",
    "C66_full_matrices_partial"
   ],
   "note": "REFUTED: disabling, assigning a covariance block and enabling again leaves a stale variance. Proved for histories that enable nothing, and for histories with full-size matrices only."
  },
  {
   "property": "C67",
   "status": "proved",
   "theorems": [
    "C67_settings_of_parameters",
    "C67_from_bool_list"
   ],
   "note": ""
  },
  {
   "property": "C68",
   "status": "partial",
   "theorems": [
    "C68_variance_propagation_refuted",
    "C68_values_partial"
   ],
   "note": "REFUTED: variances are combined as square root of the sum of squares. Values are right; variances are right if one of them is zero."
  },
  {
   "property": "C69",
   "status": "partial",
   "theorems": [
    "C69_failed_save_refuted",
    "C69_failed_save_destroys_refuted",
    "C69_save_partial"
   ],
   "note": "REFUTED: the file is emptied before the settings are serialised. Settings with attributes of the declared kinds always save."
  },
  {
   "property": "C70",
   "status": "partial",
   "theorems": [
    "C70_preprocess",
    "C70_failure",
    "C70_start_only_refuted"
   ],
   "note": "What is kept and when it fails is proved for every input. REFUTED: with a window and no fast enough source pose it is an IndexError, and a start time alone always fails."
  },
  {
   "property": "C71",
   "status": "partial",
   "theorems": [
    "C71_stream_partial",
    "C71_stream_fails",
    "C71_stream_refuted"
   ],
   "note": "REFUTED for text separated by white space: readable as a file, an error as a stream."
  },
  {
   "property": "C72",
   "status": "proved",
   "theorems": [
    "C72_optimal",
    "C72_unweighted",
    "C72_line"
   ],
   "note": ""
  },
  {
   "property": "C73",
   "status": "partial",
   "theorems": [
    "C73_iterations",
    "C73_total",
    "C73_straight",
    "C73_few_voxels_refuted"
   ],
   "note": "REFUTED: trajectories with fewer voxels than neighbours (default four) raise IndexError, one neighbour raises TypeError."
  },
  {
   "property": "C74",
   "status": "partial",
   "theorems": [
    "C74_constant",
    "C74_cubic_partial",
    "C74_joint",
    "C74_line_refuted"
   ],
   "note": "Proved for constants and for one interval. REFUTED: with several intervals neighbouring observations are forced to the same value, and the evaluation differs from the fit."
  },
  {
   "property": "C75",
   "status": "partial",
   "theorems": [
    "C75_comparison",
    "C75_round_trip_partial",
    "C75_deviations",
    "C75_lost_refuted",
    "C75_append_refuted"
   ],
   "note": "Proved: every comparison can be written, and names, epsg, times, arc lengths, positions, rotations and all deviations come back. REFUTED: the name and sorting of the trajectory and the flag that rotations were used are lost; with the default mode \"a\" a second result makes the file unreadable."
  },
  {
   "property": "C76",
   "status": "partial",
   "theorems": [
    "C76_optimal",
    "C76_found",
    "C76_refused",
    "C76_recovered_partial",
    "C76_parameters_partial",
    "C76_aligned",
    "C76_one_place",
    "C76_mirrored_refuted",
    "C76_planar_refuted"
   ],
   "note": "Proved: the estimate is optimal among all orthogonal matrices, scales and translations; exact data in space give the true parameters; wrong lengths are refused. REFUTED: there is no determinant correction, so nearly flat data can give a reflection, whose Euler angles are not the best rotation; sources in one place give not-a-number parameters without an error."
  },
  {
   "property": "C77",
   "status": "proved",
   "theorems": [
    "C77_leverarm",
    "C77_recovered",
    "C77_refused",
    "C77_reachable"
   ],
   "note": "The linear solver is a contract: what it returns solves the system."
  },
  {
   "property": "C78",
   "status": "proved",
   "theorems": [
    "C78_timeshift",
    "C78_closed_form",
    "C78_recovered"
   ],
   "note": "The default weights, an empty array, act as ones."
  },
  {
   "property": "C79",
   "status": "partial",
   "theorems": [
    "C79_optimal",
    "C79_recovered",
    "C79_refused",
    "C79_missing_refuted"
   ],
   "note": "The mean of rotations is a contract: no rotation has a smaller sum of squared chordal distances. REFUTED: without orientations a RotationSet is returned instead of parameters."
  },
  {
   "property": "C80",
   "status": "proved",
   "theorems": [
    "C80_misclosures",
    "C80_shape",
    "C80_design"
   ],
   "note": "Automatic differentiation is a contract: it returns the derivative where there is one."
  },
  {
   "property": "C81",
   "status": "proved",
   "theorems": [
    "C81_condition",
    "C81_inside"
   ],
   "note": "Contract as for C80."
  },
  {
   "property": "C82",
   "status": "proved",
   "theorems": [
    "C82_optimal",
    "C82_unique",
    "C82_exists"
   ],
   "note": "The linear solver is a contract: what it returns solves the system, and it does not fail for regular matrices. Exact arithmetic."
  },
  {
   "property": "C83",
   "status": "proved",
   "theorems": [
    "C83_fixed_point"
   ],
   "note": "About states that an iteration maps to themselves; that the iteration gets there is not claimed."
  },
  {
   "property": "C84",
   "status": "partial",
   "theorems": [
    "C84_adjustment",
    "C84_estimate",
    "C84_total",
    "C84_variances_refuted"
   ],
   "note": "Proved without variance estimation. REFUTED with variance_estimation=True: the factor is zero, all variances become zero and the second adjustment has a singular system, so there is no result."
  },
  {
   "property": "C85",
   "status": "proved",
   "theorems": [
    "C85_factor",
    "C85_scaled_factor",
    "C85_scale_free"
   ],
   "note": "Per iteration; exact arithmetic."
  },
  {
   "property": "C86",
   "status": "proved",
   "theorems": [
    "C86_similarity"
   ],
   "note": "Assumes that the singular value decomposition of the initial values converges. Exact arithmetic. The three angles are enabled together or not at all."
  },
  {
   "property": "C87",
   "status": "proved",
   "theorems": [
    "C87_lever"
   ],
   "note": "Exact arithmetic; no similarity estimated at the same time."
  },
  {
   "property": "C88",
   "status": "partial",
   "theorems": [
    "C88_partial",
    "C88_reflexive",
    "C88_refuted_raises",
    "C88_refuted_length",
    "C88_refuted_time",
    "C88_refuted_symmetric",
    "C88_refuted_orientation"
   ],
   "note": "REFUTED: different numbers of poses raise ValueError or are broadcast, time stamps since 1970 may differ by hours, the order of the operands matters, and quaternions of opposite sign are unequal. Proved: the exact answer for equal numbers of poses."
  },
  {
   "property": "C89",
   "status": "partial",
   "theorems": [
    "C89_partial",
    "C89_refuted",
    "C89_refuted_rotations"
   ],
   "note": "REFUTED: both comparisons raise AssertionError instead of answering False, and an RPE result equals itself without orientation deviations. Proved: agreeing alignment results are equal."
  },
  {
   "property": "C90",
   "status": "partial",
   "theorems": [
    "C90_partial",
    "C90_refuted",
    "C90_refuted_empty"
   ],
   "note": "REFUTED: distances displayed alike lose a line; without pairs the summary raises. Proved for distances displayed differently."
  },
  {
   "property": "C91",
   "status": "proved",
   "theorems": [
    "C91",
    "C91_errors"
   ],
   "note": "The decoding of the bag file by the rosbags package is not modelled. A zero quaternion makes the bag unreadable."
  },
  {
   "property": "C92",
   "status": "partial",
   "theorems": [
    "C92_partial",
    "C92_local",
    "C92_refuted_line",
    "C92_refuted"
   ],
   "note": "REFUTED: places visited again are left out of the line, and the exported trajectory is converted, rounded and thinned in place. Proved: the line has the first visits of all places in order."
  },
  {
   "property": "C93",
   "status": "proved",
   "theorems": [
    "C93_result",
    "C93_similarity",
    "C93_mounting",
    "C93_lever"
   ],
   "note": "The linear solver, the singular value decomposition, the automatic differentiation and the mean of rotations are contracts; variance estimation is off."
  },
  {
   "property": "C94",
   "status": "proved",
   "theorems": [
    "C94_similarity",
    "C94_mounting",
    "C94_lever"
   ],
   "note": "Matching by time stamps; mounting is stated for scale one (see C95)."
  },
  {
   "property": "C95",
   "status": "partial",
   "theorems": [
    "scipy_exact",
    "scipy_contract",
    "C95_partial",
    "C95_alignment_partial",
    "C95_refuted"
   ],
   "note": "REFUTED: a quarter turn with scale two turns level poses by about 74 degrees. The partial theorem says exactly when the orientation is right. Trusts the reading of scipy 1.13.1 from_matrix."
  },
  {
   "property": "C96",
   "status": "partial",
   "theorems": [
    "C96_partial",
    "C96_refuted"
   ],
   "note": "REFUTED: every point of the curve is at least one deviation too low, the curve ends at (n-1)/n. Unit conversion of the abscissa is left out."
  },
  {
   "property": "C97",
   "status": "proved",
   "theorems": [
    "C97"
   ],
   "note": "The drawing itself is matplotlib."
  },
  {
   "property": "C98",
   "status": "partial",
   "theorems": [
    "C98_angles",
    "C98_invariant",
    "C98_statistics",
    "C98_refuted",
    "C98_bias",
    "rotvec_witness"
   ],
   "note": "REFUTED: without orientations the deviations are an n x 3 array of zeros, not one angle per pose, and all statistics are zero instead of missing. Everything else is proved."
  },
  {
   "property": "C99",
   "status": "proved",
   "theorems": [
    "C99_positions",
    "C99_rotations"
   ],
   "note": ""
  },
  {
   "property": "C100",
   "status": "partial",
   "theorems": [
    "C100_partial",
    "C100_exactly_partial",
    "C100_refuted",
    "C100_plot_refuted",
    "C100_plot_partial"
   ],
   "note": "REFUTED: reports pair sorted times with unsorted deviations, so a deviation is drawn at another pose unless the poses are stored in order; plot_deviations raises AttributeError if no result has orientations. The drawing itself is external."
  },
  {
   "property": "C101",
   "status": "partial",
   "theorems": [
    "C101_partial",
    "C101_refuted"
   ],
   "note": "REFUTED: the value of the time shift is shown in \"m\" instead of \"ms\", because the text is split at the letter s. Everything else is proved."
  },
  {
   "property": "C102",
   "status": "proved",
   "theorems": [
    "C102"
   ],
   "note": ""
  },
  {
   "property": "C103",
   "status": "proved",
   "theorems": [
    "C103_table",
    "C103_key",
    "C103_rate"
   ],
   "note": ""
  },
  {
   "property": "C104",
   "status": "proved",
   "theorems": [
    "C104",
    "C104_recovered"
   ],
   "note": ""
  },
  {
   "property": "C105",
   "status": "partial",
   "theorems": [
    "C105_partial",
    "C105_refuted"
   ],
   "note": "REFUTED: with scatter_mapbox the positions of the caller are converted to latitude, longitude and height in place, and the component plot below the map shows these. Without the map, or with a local trajectory, it is proved."
  },
  {
   "property": "C106",
   "status": "partial",
   "theorems": [
    "C106",
    "C106_letters",
    "C106_map_partial",
    "C106_refuted"
   ],
   "note": "REFUTED: the map takes latitude and longitude from the first two chosen axes, so the order yx swaps them. Scatter plots, and maps with an order beginning xy, are proved."
  },
  {
   "property": "C107",
   "status": "partial",
   "theorems": [
    "C107_bars",
    "C107_orientations",
    "C107_label_partial",
    "C107_refuted"
   ],
   "note": "REFUTED: the label ends before the first \"vs\" in the name, so uavs 1 and uavs 2 share a label, and comparisons of one test trajectory with different references always do. The rest is proved."
  },
  {
   "property": "C108",
   "status": "partial",
   "theorems": [
    "C108_partial",
    "C108_refuted"
   ],
   "note": "REFUTED: the upper limit starts from the smallest value instead of the documented mean, so it is too low whenever it is not capped. Order and cap are proved."
  },
  {
   "property": "C109",
   "status": "partial",
   "theorems": [
    "C109_single",
    "C109_multi",
    "C109_refuted"
   ],
   "note": "REFUTED: without orientations the card shows the orientation error 0.000, as if all orientations agreed, and nan for relative errors. Plots and position errors are proved."
  },
  {
   "property": "C110",
   "status": "partial",
   "theorems": [
    "C110_partial",
    "C110_written",
    "C110_refuted",
    "C110_unwritten"
   ],
   "note": "REFUTED: show_report fails without a path (its default), with a plain file name and with two missing directory levels, since it calls os.mkdir on the directory part. With a directory part that exists or can be made it is proved."
  },
  {
   "property": "C111",
   "status": "proved",
   "theorems": [
    "C111",
    "C111_orientations"
   ],
   "note": ""
  },
  {
   "property": "C112",
   "status": "partial",
   "theorems": [
    "C112_partial",
    "C112_refuted"
   ],
   "note": "REFUTED: deviations of at most 1e-6 are dropped, and if all are zero the normalised histogram is not-a-number. For larger deviations it is proved."
  },
  {
   "property": "C113",
   "status": "proved",
   "theorems": [
    "C113"
   ],
   "note": ""
  },
  {
   "property": "C114",
   "status": "partial",
   "theorems": [
    "C114_partial",
    "C114_refuted",
    "C114_apart"
   ],
   "note": "REFUTED: the report figure draws results over distances and times on the same axes with the units of the first one. With equal units, and for the other plot, it is proved."
  },
  {
   "property": "C115",
   "status": "proved",
   "theorems": [
    "C115",
    "C115_best",
    "C115_directed"
   ],
   "note": ""
  },
  {
   "property": "C116",
   "status": "partial",
   "theorems": [
    "C116_partial",
    "C116_refuted"
   ],
   "note": "REFUTED: when as many angles grow as shrink after rotating the path to the highest point, the order is reversed although the direction was right; the half circle highest in the middle is an example. If both orders have a direction it is proved to be kept."
  },
  {
   "property": "C117",
   "status": "proved",
   "theorems": [
    "C117_path",
    "C117_inserted"
   ],
   "note": ""
  },
  {
   "property": "C118",
   "status": "proved",
   "theorems": [
    "C118_propagation",
    "C118_positive",
    "C118_rescaled",
    "C118_adjustment",
    "C118_estimate"
   ],
   "note": "The pseudo inverse is an argument with a contract for regular matrices (met by Gaussian elimination)."
  },
  {
   "property": "C119",
   "status": "partial",
   "theorems": [
    "C119_partial",
    "C119_refuted",
    "C119_report"
   ],
   "note": "REFUTED: with show_directed_devs off the legend names the histogram of the z deviations \"x\" and that of the x deviations \"z\". Proved: the histograms of directed deviations, of rotations and those of reports are named correctly and in the right unit."
  },
  {
   "property": "C120",
   "status": "partial",
   "theorems": [
    "C120_partial",
    "C120_refuted"
   ],
   "note": "REFUTED: the settings are not passed on, so the colour bar and axis settings have no effect and outliers are cut off at three sigma whatever the settings say. Proved: positions, colours up to the cut-off and units are right."
  },
  {
   "property": "C121",
   "status": "partial",
   "theorems": [
    "C121_abscissa",
    "C121_partial",
    "C121_refuted"
   ],
   "note": "REFUTED: trajectories in different reference systems of the same unit are labelled with the axes of the first one. Proved: the label of the abscissa, and the labels for one reference system, for none and for different units."
  },
  {
   "property": "C122",
   "status": "partial",
   "theorems": [
    "C122_partial",
    "C122_line_partial",
    "C122_refuted"
   ],
   "note": "REFUTED: plot_pos connects the poses as they are stored, not in the current sorting. Proved: coordinate and angle figures, and the line if the poses are stored in order."
  },
  {
   "property": "C123",
   "status": "partial",
   "theorems": [
    "C123_partial",
    "C123_refuted"
   ],
   "note": "REFUTED: near the ends the sum of an incomplete window is divided by the whole filter size, so constant data shrink; data shorter than the filter raise a ValueError; values at different abscissae are never merged, so nothing is reduced. Proved: interior values are means of their windows, the abscissae belong to the values, and exactly the repetitions are removed."
  },
  {
   "property": "C124",
   "status": "proved",
   "theorems": [
    "C124_lap"
   ],
   "note": ""
  },
  {
   "property": "C125",
   "status": "proved",
   "theorems": [
    "C125_cross"
   ],
   "note": ""
  },
  {
   "property": "C126",
   "status": "proved",
   "theorems": [
    "C126_summary"
   ],
   "note": ""
  },
  {
   "property": "C127",
   "status": "partial",
   "theorems": [
    "C127_partial",
    "C127_refuted"
   ],
   "note": "REFUTED: the covariance matrix of a part is zero whatever the variances of its parameters are, and variances written through a part do not reach the covariance matrix of the set. Proved: values, order, enabled flags and assignments of values."
  },
  {
   "property": "C128",
   "status": "partial",
   "theorems": [
    "C128_found",
    "C128_partial",
    "C128_refuted"
   ],
   "note": "REFUTED: the search compares the means of voxels with the radius, so it misses points within the radius and returns points outside. Proved: the points found are exactly those of voxels whose mean is within the radius, each as often as in the cloud; and, for clouds of at most nine voxels in y and z, the result is right up to one diagonal of a voxel."
  },
  {
   "property": "C129",
   "status": "partial",
   "theorems": [
    "C129_crop",
    "C129_match",
    "C129_intersect_partial",
    "C129_refuted",
    "C129_interpolate",
    "C129_steps"
   ],
   "note": "REFUTED: intersecting again raises IndexError if the first intersection left no pose. Proved: everything else in the statement; intersecting again changes nothing if a pose is left."
  },
  {
   "property": "C130",
   "status": "partial",
   "theorems": [
    "C130_order_partial",
    "C130_steps_partial",
    "C130_refuted"
   ],
   "note": "REFUTED: the arc lengths of the merged trajectory depend on the order of the inputs. Proved: timestamps, positions, rotations and name do not depend on the order or on merging in steps."
  },
  {
   "property": "C131",
   "status": "proved",
   "theorems": [
    "C131_spatial",
    "C131_temporal",
    "C131_interpolation",
    "C131_settings"
   ],
   "note": "Reals instead of floats; without ties. The method that fits lines returns new objects, see C23, and is not covered."
  },
  {
   "property": "C132",
   "status": "proved",
   "theorems": [
    "C132_sources",
    "C132_targets",
    "C132_order",
    "C132_found"
   ],
   "note": "Reals instead of floats; the singular value decomposition by its contract."
  },
  {
   "property": "C133",
   "status": "proved",
   "theorems": [
    "C133_transformation",
    "C133_alignment",
    "C133_interpolation",
    "C133_merging"
   ],
   "note": "Reals instead of floats. Selecting commutes exactly, with exceptions. Interpolation: timestamps, positions and arc lengths (the interpolated rotations are those of an external routine, the speeds are recomputed by one order and kept by the other); merging: timestamps, positions, orientations and the epsg code of trajectories that have orientations (arc lengths and speeds are recomputed)."
  },
  {
   "property": "C134",
   "status": "partial",
   "theorems": [
    "C134_selections",
    "C134_left_behind_refuted",
    "C134_intersect_refuted",
    "C134_moving",
    "C134_merging",
    "C134_history"
   ],
   "note": "REFUTED for trajectories with orientations: selecting no pose raises ValueError after timestamps and positions were already removed, so in place a trajectory with orientations, arc lengths and speeds but no positions is left; moving an empty trajectory and merging with one raise ValueError too. Proved: in all other cases the operations are those of C01 to C07, C14, C16 and C25, and every history of successful calls is one of C02. Trusts that Rotation of scipy 1.13.1 refuses arrays without rows."
  },
  {
   "property": "C135",
   "status": "partial",
   "theorems": [
    "C135_torn_partial",
    "C135_complete",
    "C135_unopened",
    "C135_lost_refuted",
    "C135_unnoticed_refuted",
    "C135_value_refuted",
    "C135_append_refuted"
   ],
   "note": "REFUTED: the old file is gone as soon as the new one is opened (no temporary file), a file cut between two poses is read without an error as a shorter trajectory, a cut within the last number of a line changes the vertical speed that is read, and interrupted appending makes the existing poses unreadable or changes their coordinate system. Proved: with mode \"w\" every crash point whose file is read gives a beginning of the written poses with the right name and coordinate system, exact up to the written precision apart from the vertical speed of the last pose. Assumes that characters reach the disk in order; trajectories read with values that are not finite are not modelled."
  },
  {
   "property": "C136",
   "status": "partial",
   "theorems": [
    "C136_selecting",
    "C136_interpolating",
    "C136_constructing",
    "C136_merging",
    "C136_nearest",
    "C136_matching_origin",
    "C136_relative",
    "C136_rpe_origin",
    "C136_ate_origin",
    "C136_assumptions_met",
    "C136_interpolation_unit_refuted"
   ],
   "note": "REFUTED for the unit when matching by interpolation: the largest accepted gap is the number two whatever the unit of the time stamps, so the same recordings in milliseconds match differently. Everything else is proved as stated; rounding of times is not modelled."
  },
  {
   "property": "C137",
   "status": "proved",
   "theorems": [
    "C137_absolute",
    "C137_relative"
   ],
   "note": "The angles of exchanged orientations are covered by C98_angles. The relative comparison measures distances along the reference, so equal distances (as after matching by interpolation) are a hypothesis."
  },
  {
   "property": "C138",
   "status": "proved",
   "theorems": [
    "C138_selected",
    "C138_order"
   ],
   "note": "Directed deviations are covered when orientations are present; without them they are taken along the way to the next pose, which another order changes."
  },
  {
   "property": "C139",
   "status": "proved",
   "theorems": [
    "C139_operations",
    "C139_constructing",
    "C139_matching",
    "C139_absolute",
    "C139_statistics",
    "C139_relative",
    "C139_rpe",
    "C139_assumptions_met"
   ],
   "note": "The search tree and the routine for the principal direction are assumed to follow the unit; both assumptions are met by concrete routines. The estimation of an alignment, whose thresholds are fixed numbers, is not part of the property."
  },
  {
   "property": "C140",
   "status": "partial",
   "theorems": [
    "C140_rpe_partial",
    "C140_ate_partial",
    "C140_rpe_ends",
    "C140_ate_ends",
    "C140_lost_refuted",
    "C140_rpe_unnoticed_refuted",
    "C140_ate_unnoticed_refuted",
    "C140_value_refuted"
   ],
   "note": "REFUTED: the old content is lost at once, an incomplete file is read without an error as a shorter result, and the last value can be another one. Proved for mode \"w\": what is read from an incomplete file has the right name, unit or coordinate system, and holds first pairs or poses, correct but for the last value of the last column. Missing: mode \"a\"."
  },
  {
   "property": "C141",
   "status": "partial",
   "theorems": [
    "C141_round_trip",
    "C141_stopped_partial",
    "C141_refused",
    "C141_unnoticed_refuted",
    "C141_again_refuted",
    "C141_one_column"
   ],
   "note": "REFUTED: for every result with the last sensor angle switched off there is a point at which an interrupted file is read without an error and with this angle, and so the estimation of a sensor rotation, switched on; saving to a file that holds a result makes both results unreadable. Proved: the round trip; every file whose last line was not begun is refused; otherwise all but the last angle and its flag are right."
  },
  {
   "property": "C142",
   "status": "proved",
   "theorems": [
    "C142_round_trip",
    "C142_interrupted",
    "C142_not_saved"
   ],
   "note": "For the first 256 code points; float.__repr__ and float by a contract with a witness. The old settings are lost once the file is opened: the file is then refused until it is complete."
  },
  {
   "property": "C143",
   "status": "partial",
   "theorems": [
    "C143_crop_partial",
    "C143_refuted"
   ],
   "note": "REFUTED: if the trajectories with orientations have no pose in the span, cropping the merged trajectory gives identity orientations and merging the cropped ones gives none. Proved for timestamps and positions always, and for orientations in all other cases."
  },
  {
   "property": "C144",
   "status": "partial",
   "theorems": [
    "C144_history",
    "C144_later",
    "C144_memory_refuted"
   ],
   "note": "REFUTED: the positions stay in memory; every successful call leaves at least one more grid with its points in the cache, which has no limit. Proved that results do not depend on the history."
  },
  {
   "property": "C145",
   "status": "partial",
   "theorems": [
    "C145_distinct_partial",
    "C145_given",
    "C145_taken_refuted"
   ],
   "note": "REFUTED: an automatic name may be one that was given to another trajectory. Proved: automatic names differ from each other in every history."
  },
  {
   "property": "C146",
   "status": "partial",
   "theorems": [
    "C146_parameters",
    "C146_settings_partial",
    "C146_own_settings_partial",
    "C146_separate",
    "C146_default_refuted",
    "C146_result_refuted"
   ],
   "note": "REFUTED: result.estimation_of is the settings object itself; assigning to it changes the defaults of all later alignments without settings, and reusing a settings object changes what earlier results say. Proved for histories without such assignments, and for the parameters always."
  },
  {
   "property": "C147",
   "status": "partial",
   "theorems": [
    "C147_history",
    "C147_length_partial",
    "C147_crop",
    "C147_length_refuted"
   ],
   "note": "REFUTED: after crop the arc lengths still start where they did, so total_length includes the part that was cut off. Proved: the length shown is always between the length of the remaining path and that of the original path, and after crop it is the length of the remaining path plus the arc length of its first pose."
  },
  {
   "property": "C148",
   "status": "proved",
   "theorems": [
    "C148_rate",
    "C148_order",
    "C148_few",
    "C148_even"
   ],
   "note": ""
  },
  {
   "property": "C149",
   "status": "partial",
   "theorems": [
    "C149_new",
    "C149_limit",
    "C149_history",
    "C149_crop",
    "C149_last_refuted"
   ],
   "note": "REFUTED: the last computed speed of every new trajectory is zero, also for constant motion. Proved: all other speeds lead exactly to the next pose, and no history exceeds the highest speed."
  },
  {
   "property": "C150",
   "status": "partial",
   "theorems": [
    "C150_absolute",
    "C150_relative",
    "C150_interpolation",
    "C150_length",
    "C150_files",
    "C150_along_refuted"
   ],
   "note": "REFUTED: without orientations, deviations along and across the track are taken in the direction of the next reference position, so that an arbitrarily small change can turn their sign. Proved: all other values change by no more than the positions do."
  },
  {
   "property": "C151",
   "status": "partial",
   "theorems": [
    "C151_crop",
    "C151_any",
    "C151_local",
    "C151_order",
    "C151_times_refuted",
    "C151_speed_refuted"
   ],
   "note": "REFUTED: cropping before interpolating loses requested times of the span before the first and after the last pose that it keeps, and the speed at the last time becomes zero. Proved: everything else is the same; the spherical interpolation is any function that hits its ends (hits_ends)."
  },
  {
   "property": "C152",
   "status": "partial",
   "theorems": [
    "C152_names",
    "C152_dict",
    "C152_history",
    "C152_last",
    "C152_lost_refuted",
    "C152_sum",
    "C152_sizes"
   ],
   "note": "REFUTED: negating a parameter keeps its name, so that a set with a parameter and its negation has one dictionary entry for both, that of the latter. Proved: names made up by the constructor differ in every history, and the dictionary is complete for all standard sets."
  },
  {
   "property": "C153",
   "status": "partial",
   "theorems": [
    "C153_spatial",
    "C153_temporal",
    "C153_intersect",
    "C153_longer",
    "C153_pairs_refuted"
   ],
   "note": "REFUTED: a pair of the tighter matching need not be one of the looser matching, as an earlier and farther test pose takes its reference pose. Proved: all reference poses are kept and a pair changes only to a test pose that the old limit excluded. Equally near reference poses are excluded for the matchings, as the search breaks such ties."
  },
  {
   "property": "C154",
   "status": "proved",
   "theorems": [
    "C154_reads",
    "C154_rotations",
    "C154_refuses"
   ],
   "note": "Timestamps are stated for files with seconds (the other time formats are C48); refusals are stated for such files too. Values that are not finite are outside of the model."
  },
  {
   "property": "C155",
   "status": "proved",
   "theorems": [
    "C155_configured",
    "C155_ratios",
    "C155_test",
    "C155_smaller_error"
   ],
   "note": "C155_ratios and C155_test are stated for more equations than estimated parameters. Quantiles are only assumed to grow with the probability."
  },
  {
   "property": "C156",
   "status": "partial",
   "theorems": [
    "C156_exists",
    "C156_values_partial",
    "C156_file",
    "C156_drift_partial",
    "C156_orientation_refuted"
   ],
   "note": "REFUTED: orientations may change again at every reading, because quaternions with nine decimals are normalised when they are read and rounded when they are written (C156_orientation_refuted); each time by at most 1.5e-9 per component (C156_drift_partial). Everything else, and whole files of trajectories without orientations, stays as after the first reading."
  },
  {
   "property": "C157",
   "status": "proved",
   "theorems": [
    "C157_interpolated",
    "C157_matched",
    "C157_measured",
    "C157_nearest",
    "C157_errors",
    "C157_reached"
   ],
   "note": "Time-sorted trajectories. A bound of the acceleration is stated without derivatives: the motion leaves its tangents by at most a t^2 / 2."
  },
  {
   "property": "C158",
   "status": "proved",
   "theorems": [
    "C158_displacement",
    "C158_drift",
    "C158_offset",
    "C158_scale",
    "C158_heading",
    "C158_plain"
   ],
   "note": "Pairs of distance zero have no value (see C31) and are excluded by 0 < e_dist. C158_scale takes the arc lengths that the constructor computes from the positions."
  },
  {
   "property": "C159",
   "status": "proved",
   "theorems": [
    "C159_bounds",
    "C159_per_metre",
    "C159_plain",
    "C159_growth"
   ],
   "note": "rotvec_contract as in C98 (rotvec_impl is a witness). Pairs of distance zero have no value (see C31)."
  },
  {
   "property": "C160",
   "status": "proved",
   "theorems": [
    "C160_any",
    "C160_straight",
    "C160_vehicle"
   ],
   "note": "Without orientations the estimate must not be behind by twice the last step or more, because of the refuted part of C61; that hypothesis is needed for the last pose only."
  },
  {
   "property": "C161",
   "status": "partial",
   "theorems": [
    "C161_jitter",
    "C161_late",
    "C161_hidden",
    "C161_noise",
    "C161_noise_error",
    "C161_equal_stamps_refuted"
   ],
   "note": "REFUTED: poses with equal time stamps are paired; if an earlier test pose is nearest to the same reference pose, the earlier one takes it (C161_equal_stamps_refuted, for every time limit above the sampling interval or none). Everything else is proved in full."
  },
  {
   "property": "C162",
   "status": "proved",
   "theorems": [
    "C162_linear",
    "C162_frame",
    "C162_trajectory",
    "C162_again",
    "C162_centre",
    "C162_closer"
   ],
   "note": "Over the reals; linear solver external (solve_contract, and its failure depends on the matrix: met by elimination)."
  },
  {
   "property": "C163",
   "status": "proved",
   "theorems": [
    "C163"
   ],
   "note": "Rotation mean external (mean_contract: it minimises the chordal distances); for windows with several best means scipy may pick either, so they are excluded."
  },
  {
   "property": "C164",
   "status": "proved",
   "theorems": [
    "C164_better",
    "C164_strict",
    "C164_spread"
   ],
   "note": "Over the reals."
  },
  {
   "property": "C165",
   "status": "partial",
   "theorems": [
    "C165_origin",
    "C165_unit",
    "C165_trajectory_partial",
    "C165_window_unit",
    "C165_window_origin_refuted"
   ],
   "note": "REFUTED: the smoothing window of orientations is counted in bins of the rounded absolute argument, so three orientations within less than a window are smoothed or left alone depending on the origin of time. Proved: positions for every origin and unit, orientations for every unit, whole trajectories without orientations or sorted by arc length."
  },
  {
   "property": "C166",
   "status": "proved",
   "theorems": [
    "C166_spread",
    "C166_back",
    "C166_again",
    "C166_rotation_back",
    "C166_rotation_again"
   ],
   "note": "Over the reals, svd and mean of rotations external (svd_contract, mean_contract); the estimate before conversion to angles, which may be a reflection (C76)."
  },
  {
   "property": "C167",
   "status": "partial",
   "theorems": [
    "C167_reference",
    "C167_same_rate",
    "C167_alone_refuted"
   ],
   "note": "REFUTED: the result for an estimate depends on what was evaluated before, because the metrics match in place (C167_alone_refuted). Proved: the reference only loses poses, and nothing is lost for estimates with the time stamps of the reference. The second matching inside the alignment of ate is not part of the series."
  },
  {
   "property": "C168",
   "status": "proved",
   "theorems": [
    "C168_totals",
    "C168_parameters",
    "C168_merged",
    "C168_repeated",
    "C168_zero",
    "C168_order",
    "C168_factor"
   ],
   "note": "Over the reals; with an explicit list of weights (no weights are ones by definition of the function). The rotation itself may differ for multiplied weights if several are equally good."
  },
  {
   "property": "C169",
   "status": "proved",
   "theorems": [
    "C169_sections"
   ],
   "note": "Position errors, over the reals."
  },
  {
   "property": "C170",
   "status": "partial",
   "theorems": [
    "C170_similarity",
    "C170_leverarm",
    "C170_timeshift",
    "C170_mean_refuted"
   ],
   "note": "REFUTED: the mean position error, which the library reports as the absolute trajectory error, can grow by aligning (C170_mean_refuted). Proved for the root mean square error. Closed-form estimators without weights, which give the initial values of the adjustment; mirror images are excluded by the determinant of the estimated matrix."
  }
 ]
}