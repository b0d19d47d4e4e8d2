# Assumptions of each theorem

What `Print Assumptions` lists for each theorem named in MANIFEST.json.  All four axioms are the standard library's:

* F: `ClassicalDedekindReals.sig_forall_dec`
* N: `ClassicalDedekindReals.sig_not_dec`
* E: `FunctionalExtensionality.functional_extensionality_dep`
* C: `Classical_Prop.classic`
* none: closed under the global context

| Property | Theorem | File | Axioms |
|---|---|---|---|
| C01 | `C01_apply_index_int` | `TrajProps.v` | none |
| C01 | `C01_apply_index_mask` | `TrajProps.v` | none |
| C01 | `C01_apply_index_raises` | `TrajProps.v` | none |
| C02 | `C02_history_consistent` | `TrajProps.v` | F E |
| C02 | `C02_history_subset` | `TrajProps.v` | F E |
| C02 | `C02_history_sorted` | `TrajProps.v` | F E |
| C03 | `C03_constructor_raises` | `TrajProps.v` | F N E |
| C03 | `C03_constructor_consistent` | `TrajProps.v` | F N E |
| C03 | `C03_empty_positions_refuted` | `TrajProps.v` | F N E |
| C04 | `C04_crop` | `TrajProps.v` | F E |
| C05 | `C05_common_time_span` | `TrajProps.v` | F E |
| C05 | `C05_common_time_span_raises` | `TrajProps.v` | F E |
| C05 | `C05_common_time_span_order` | `TrajProps.v` | F E |
| C06 | `C06_intersect` | `TrajProps.v` | F E |
| C06 | `C06_intersect_empty` | `TrajProps.v` | F E |
| C07 | `C07_match_timestamps` | `TrajProps.v` | F E |
| C08 | `C08_interpolate_timestamps` | `TrajProps.v` | F E |
| C08 | `C08_interpolate_positions` | `TrajProps.v` | F E |
| C08 | `C08_interpolate_affine` | `TrajProps.v` | F E |
| C08 | `C08_interpolate_no_extrapolation` | `TrajProps.v` | F E |
| C08 | `C08_interpolate_rotations` | `TrajProps.v` | F E |
| C08 | `C08_interpolate_all_rotations` | `LawProps.v` | F E |
| C08 | `C08_interpolate_arc_lengths` | `TrajProps.v` | F E |
| C09 | `C09_interpolate_consistent_partial` | `TrajProps.v` | F E |
| C09 | `C09_interpolate_consistent_refuted` | `TrajProps.v` | F E |
| C10 | `C10_arc_lengths` | `TrajProps.v` | F N E |
| C10 | `C10_arc_lengths_similarity` | `TrajProps.v` | F N E |
| C10 | `C10_arc_lengths_isometry` | `TrajProps.v` | F N E |
| C11 | `C11_sorted_view` | `TrajProps.v` | F E |
| C11 | `C11_sorted_keys` | `TrajProps.v` | F E |
| C11 | `C11_approximate` | `TrajProps.v` | F E |
| C12 | `C12_methods` | `HeapProps.v` | F N E |
| C12 | `C12_inplace_false_unchanged` | `HeapProps.v` | none |
| C12 | `C12_inplace_false_result` | `HeapProps.v` | none |
| C12 | `C12_inplace_true` | `HeapProps.v` | none |
| C12 | `C12_copy` | `HeapProps.v` | none |
| C12 | `C12_history` | `HeapProps.v` | none |
| C13 | `C13_no_interference_partial` | `HeapProps.v` | none |
| C13 | `C13_shared_pointset_refuted` | `HeapProps.v` | F N E |
| C14 | `C14_apply_transformation` | `GeomProps.v` | F N E |
| C14 | `C14_positions` | `GeomProps.v` | F E |
| C14 | `C14_compose` | `GeomProps.v` | F N E |
| C14 | `C14_compose_positions` | `GeomProps.v` | F E |
| C14 | `C14_identity` | `GeomProps.v` | F N E |
| C14 | `C14_inverse` | `GeomProps.v` | F N E |
| C14 | `C14_preserves` | `GeomProps.v` | F N E |
| C15 | `C15_apply_transformation_partial` | `GeomProps.v` | F N E |
| C15 | `C15_gains_orientation_refuted` | `GeomProps.v` | F E |
| C15 | `C15_derived_quantities_refuted` | `GeomProps.v` | F N E C |
| C16 | `C16_apply_alignment_partial` | `GeomProps.v` | F N E |
| C16 | `C16_apply_alignment_inplace_refuted` | `GeomProps.v` | none |
| C17 | `C17_apply_alignment` | `GeomProps.v` | F N E |
| C17 | `C17_misclosure` | `GeomProps.v` | F N E |
| C17 | `C17_defaults` | `GeomProps.v` | F N E |
| C17 | `C17_leverarm_apply_to` | `GeomProps.v` | F N E |
| C18 | `C18_adopt_first_is_noop` | `GeomProps.v` | F N E |
| C18 | `C18_adopt_first_pose_refuted` | `GeomProps.v` | F N E |
| C19 | `C19_spatial` | `MatchProps.v` | F N E |
| C19 | `C19_temporal` | `MatchProps.v` | F N E |
| C19 | `C19_equal_length` | `MatchProps.v` | F E |
| C19 | `C19_no_test_poses` | `MatchProps.v` | F E |
| C19 | `C19_settings` | `MatchProps.v` | F N E |
| C19 | `knn_contract_satisfiable` | `MatchProps.v` | F E |
| C20 | `C20_best_partner_refuted` | `MatchProps.v` | F N E |
| C20 | `C20_all_kept_partial` | `MatchProps.v` | F E |
| C21 | `C21_temporal_sorted` | `MatchProps.v` | F N E |
| C22 | `C22_interpolation_sampling` | `MatchProps.v` | F E |
| C22 | `C22_no_extrapolation` | `MatchProps.v` | F E |
| C22 | `C22_consistent` | `MatchProps.v` | F E |
| C23 | `C23_metrics_compare_matched_partial` | `MatchProps.v` | F N E |
| C23 | `C23_spatial_interpolation_refuted` | `MatchProps.v` | F N E |
| C24 | `C24_projection` | `MatchProps.v` | F N E |
| C24 | `C24_spatial_interpolation` | `MatchProps.v` | F N E |
| C25 | `C25_merge` | `MergeProps.v` | F N E |
| C25 | `C25_empty_list` | `MergeProps.v` | none |
| C26 | `C26_successive_partial` | `MergeProps.v` | F N E |
| C26 | `C26_arc_lengths_refuted` | `MergeProps.v` | F N E |
| C27 | `C27_sort_permutation` | `SortProps.v` | F E |
| C27 | `C27_sort_path` | `SortProps.v` | F E |
| C27 | `C27_sort_spatially` | `SortProps.v` | F N E |
| C28 | `C28_helmert_equations` | `GeomProps.v` | F N E |
| C28 | `C28_helmert_similarity` | `GeomProps.v` | F N E |
| C29 | `C29_inverse` | `EvalProps.v` | F E |
| C29 | `C29_invariant` | `EvalProps.v` | F N E C |
| C29 | `C29_apply_transformation` | `EvalProps.v` | F N E C |
| C29 | `C29_entries` | `EvalProps.v` | F N E C |
| C29 | `C29_entries_plain` | `EvalProps.v` | F N E C |
| C30 | `C30_all_pairs` | `EvalProps.v` | F E |
| C30 | `C30_entries` | `EvalProps.v` | F N E C |
| C31 | `C31_consecutive_partial` | `EvalProps.v` | F E |
| C31 | `C31_consecutive_refuted` | `EvalProps.v` | F N E C |
| C32 | `C32_pair_distances_partial` | `EvalProps.v` | F N E C |
| C32 | `C32_pair_distances_refuted` | `EvalProps.v` | F N E C |
| C33 | `C33_deviations` | `EvalProps.v` | F N E |
| C33 | `C33_self` | `EvalProps.v` | F N E |
| C33 | `C33_swap` | `EvalProps.v` | F N E |
| C33 | `C33_lengths` | `EvalProps.v` | F N E |
| C34 | `C34_decomposition_partial` | `EvalProps.v` | F N E |
| C34 | `C34_decomposition_refuted` | `EvalProps.v` | F N E C |
| C34 | `C34_standing_refuted` | `EvalProps.v` | F N E C |
| C35 | `C35_statistics` | `EvalProps.v` | F N E |
| C35 | `C35_median` | `EvalProps.v` | F N E |
| C35 | `C35_empty` | `EvalProps.v` | F N E |
| C36 | `C36_values` | `ParamProps.v` | F |
| C36 | `C36_all_values` | `ParamProps.v` | F |
| C36 | `C36_covariance` | `ParamProps.v` | F |
| C36 | `C36_disabled_report_default` | `ParamProps.v` | F |
| C37 | `C37_settings` | `ParamProps.v` | F |
| C37 | `C37_columns` | `ParamProps.v` | F |
| C37 | `C37_components` | `ParamProps.v` | none |
| C38 | `C38_from_settings_refuted` | `ParamProps.v` | F |
| C38 | `C38_from_settings_partial` | `ParamProps.v` | F |
| C39 | `C39_parameter_file_refuted` | `ParamProps.v` | F E |
| C39 | `C39_result_file_partial` | `ParamProps.v` | F E |
| C39 | `C39_append_refuted` | `ParamProps.v` | F E |
| C40 | `C40_round_trip` | `SettProps.v` | F E |
| C40 | `C40_file_round_trip` | `SettProps.v` | F E |
| C40 | `C40_extra_keys` | `SettProps.v` | F E |
| C40 | `C40_missing_key` | `SettProps.v` | F E |
| C40 | `C40_only_value_errors` | `SettProps.v` | F E |
| C40 | `C40_attributes` | `SettProps.v` | F E |
| C40 | `C40_nested_not_checked_refuted` | `SettProps.v` | F E |
| C41 | `C41_update_atomic_refuted` | `SettProps.v` | F E |
| C41 | `C41_update_is_reading_partial` | `SettProps.v` | F E |
| C41 | `C41_failed_update_partial` | `SettProps.v` | F E |
| C41 | `C41_first_missing_partial` | `SettProps.v` | F E |
| C42 | `C42_build` | `DataProps.v` | F |
| C42 | `C42_epochs` | `DataProps.v` | F |
| C42 | `C42_groups` | `DataProps.v` | F |
| C42 | `C42_variances` | `DataProps.v` | F E |
| C42 | `C42_write_read` | `DataProps.v` | none |
| C42 | `C42_read_back` | `DataProps.v` | none |
| C42 | `C42_write_refused` | `DataProps.v` | none |
| C42 | `C42_estimated` | `DataProps.v` | F |
| C42 | `C42_history` | `DataProps.v` | none |
| C42 | `C42_wrong_rows` | `DataProps2.v` | none |
| C42 | `C42_one_row` | `DataProps2.v` | none |
| C43 | `C43_unused_axis_refuted` | `DataProps.v` | F E |
| C43 | `C43_speed_partial` | `DataProps.v` | F |
| C44 | `C44_window_refuted` | `DataProps.v` | F N E |
| C44 | `C44_window_partial` | `DataProps.v` | F N E |
| C45 | `C45_bounded` | `EstProps.v` | F E |
| C45 | `C45_reported` | `EstProps.v` | F E |
| C45 | `C45_initial` | `EstProps.v` | F E |
| C45 | `C45_nothing` | `EstProps.v` | F E |
| C45 | `C45_own_threshold_partial` | `EstProps.v` | F E |
| C45 | `C45_own_threshold_refuted` | `EstProps.v` | F E |
| C45 | `C45_nan_refuted` | `EstProps.v` | F E |
| C46 | `C46_last_wins` | `IoProps.v` | F |
| C46 | `C46_accepts` | `IoProps.v` | none |
| C46 | `C46_written` | `IoProps.v` | F E |
| C46 | `C46_failure` | `HeadProps.v` | none |
| C47 | `C47_round_trip_partial` | `IoProps.v` | F N E |
| C47 | `C47_append` | `IoProps.v` | F N E |
| C47 | `C47_empty_refuted` | `IoProps.v` | F N E |
| C47 | `C47_name_refuted` | `IoProps.v` | F N E |
| C47 | `C47_writable` | `CaseProps.v` | none |
| C48 | `C48_unix` | `IoProps.v` | F |
| C48 | `C48_numbered` | `IoProps.v` | F |
| C48 | `C48_gps_partial` | `IoProps.v` | F E |
| C48 | `C48_gps_zone_refuted` | `IoProps.v` | F E |
| C48 | `C48_gps_count` | `IoProps.v` | F |
| C48 | `C48_datetime_partial` | `IoProps.v` | F |
| C48 | `C48_datetime_refuted` | `IoProps.v` | F E |
| C48 | `C48_any_case_partial` | `CaseProps.v` | F |
| C49 | `C49_accepted` | `IoProps.v` | F |
| C49 | `C49_proper_partial` | `IoProps.v` | F E |
| C49 | `C49_converts_partial` | `IoProps.v` | F E |
| C49 | `C49_refuted` | `IoProps.v` | F E |
| C49 | `C49_applied` | `IoProps.v` | F N E |
| C49 | `C49_any_case` | `CaseProps.v` | F |
| C49 | `C49_same_matrix` | `CaseProps.v` | F |
| C50 | `C50_comparison` | `RpeProps.v` | F N E C |
| C50 | `C50_counts` | `RpeProps.v` | none |
| C50 | `C50_metrics` | `RpeProps.v` | F E |
| C50 | `C50_round_trip_partial` | `RpeProps.v` | F E |
| C50 | `C50_collision` | `RpeProps.v` | F E |
| C50 | `C50_resolution_refuted` | `RpeProps.v` | F E |
| C50 | `C50_unit_refuted` | `RpeProps.v` | F E |
| C50 | `C50_append_refuted` | `RpeProps.v` | F E |
| C51 | `C51_fit` | `ApproxProps.v` | F E |
| C51 | `C51_total` | `ApproxProps.v` | F E |
| C51 | `C51_few` | `ApproxProps.v` | F E |
| C51 | `C51_basis` | `ApproxProps.v` | F N E C |
| C51 | `C51_eval` | `ApproxProps.v` | F E |
| C51 | `C51_nodes` | `ApproxProps.v` | F E |
| C51 | `C51_merged_refuted` | `ApproxProps.v` | F E |
| C52 | `C52_window_partial` | `ApproxProps.v` | F E |
| C52 | `C52_total` | `ApproxProps.v` | F E |
| C52 | `C52_constant` | `ApproxProps.v` | F E |
| C52 | `C52_last_ignored_refuted` | `ApproxProps.v` | F E |
| C53 | `C53_partition` | `ApproxProps.v` | F E |
| C53 | `C53_total` | `ApproxProps.v` | F E |
| C53 | `C53_same_cell` | `ApproxProps.v` | F E |
| C53 | `C53_separate_partial` | `ApproxProps.v` | F E |
| C53 | `C53_collision_refuted` | `ApproxProps.v` | F N E |
| C54 | `C54_short` | `ReportProps.v` | F E |
| C54 | `C54_zero_size` | `ReportProps.v` | F E |
| C54 | `C54_chunks_partial` | `ReportProps.v` | F E |
| C54 | `C54_general` | `ReportProps.v` | F E |
| C54 | `C54_size` | `ReportProps.v` | F E |
| C54 | `C54_zero_refuted` | `ReportProps.v` | F E |
| C54 | `C54_columns_refuted` | `ReportProps.v` | F E |
| C55 | `C55_metres` | `ReportProps.v` | F |
| C55 | `C55_effect_partial` | `ReportProps.v` | F E |
| C55 | `C55_millimetres_refuted` | `ReportProps.v` | F N E |
| C56 | `C56_rndodd` | `ApproxProps.v` | F E |
| C57 | `C57_failing_call_partial` | `HeapProps.v` | F E |
| C57 | `C57_failing_interpolate_refuted` | `HeapProps.v` | F E |
| C58 | `C58_least_squares_line` | `MatchProps.v` | F N E |
| C59 | `C59_no_limit` | `MatchProps.v` | F N E |
| C59 | `C59_too_few` | `MatchProps.v` | F N E |
| C60 | `C60_discard_refuted` | `SortProps.v` | F E |
| C60 | `C60_discard_partial` | `SortProps.v` | F E |
| C61 | `C61_along_track_partial` | `EvalProps.v` | F N E |
| C61 | `C61_along_track_refuted` | `EvalProps.v` | F N E C |
| C62 | `C62_rms_components` | `EvalProps.v` | F N E |
| C63 | `C63_common_motion` | `EvalProps.v` | F N E |
| C64 | `C64_relative_outcome` | `EvalProps.v` | F N E C |
| C64 | `C64_relative_result` | `EvalProps.v` | F N E C |
| C64 | `C64_relative_rejects` | `EvalProps.v` | F N E C |
| C65 | `C65_rejected_matrix_refuted` | `ParamProps.v` | F |
| C65 | `C65_shape_partial` | `ParamProps.v` | F |
| C66 | `C66_variances_agree_refuted` | `ParamProps.v` | F E |
| C66 | `C66_no_enabling_partial` | `ParamProps.v` | F |
| C66 | `C66_full_matrices_partial` | `ParamProps.v` | F |
| C67 | `C67_settings_of_parameters` | `ParamProps.v` | F |
| C67 | `C67_from_bool_list` | `ParamProps.v` | none |
| C68 | `C68_variance_propagation_refuted` | `ParamProps.v` | F N E |
| C68 | `C68_values_partial` | `ParamProps.v` | F N E |
| C69 | `C69_failed_save_refuted` | `SettProps.v` | none |
| C69 | `C69_failed_save_destroys_refuted` | `SettProps.v` | F E |
| C69 | `C69_save_partial` | `SettProps.v` | F E |
| C70 | `C70_preprocess` | `DataProps.v` | F N E |
| C70 | `C70_failure` | `DataProps.v` | F N E |
| C70 | `C70_start_only_refuted` | `DataProps.v` | F N E |
| C71 | `C71_stream_partial` | `IoProps.v` | F N E |
| C71 | `C71_stream_fails` | `IoProps.v` | F N E |
| C71 | `C71_stream_refuted` | `IoProps.v` | F N E |
| C72 | `C72_optimal` | `LsqProps.v` | F E |
| C72 | `C72_unweighted` | `LsqProps.v` | F E |
| C72 | `C72_line` | `LsqProps.v` | F E |
| C73 | `C73_iterations` | `ApproxProps.v` | F N E |
| C73 | `C73_total` | `ApproxProps.v` | F N E |
| C73 | `C73_straight` | `ApproxProps.v` | F N E |
| C73 | `C73_few_voxels_refuted` | `ApproxProps.v` | F N E |
| C74 | `C74_constant` | `ApproxProps.v` | F E |
| C74 | `C74_cubic_partial` | `ApproxProps.v` | F E |
| C74 | `C74_joint` | `ApproxProps.v` | F E |
| C74 | `C74_line_refuted` | `ApproxProps.v` | F E |
| C75 | `C75_comparison` | `AteProps.v` | F N E |
| C75 | `C75_round_trip_partial` | `AteProps.v` | F N E |
| C75 | `C75_deviations` | `AteProps.v` | F N E |
| C75 | `C75_lost_refuted` | `AteProps.v` | F N E |
| C75 | `C75_append_refuted` | `AteProps.v` | F N E |
| C76 | `C76_optimal` | `DirectProps.v` | F N E |
| C76 | `C76_found` | `DirectProps.v` | F N E |
| C76 | `C76_refused` | `DirectProps.v` | F N E |
| C76 | `C76_recovered_partial` | `DirectProps.v` | F N E |
| C76 | `C76_parameters_partial` | `DirectProps.v` | F N E |
| C76 | `C76_aligned` | `DirectProps.v` | F N E |
| C76 | `C76_one_place` | `DirectProps.v` | F N E |
| C76 | `C76_mirrored_refuted` | `DirectProps.v` | F N E |
| C76 | `C76_planar_refuted` | `DirectProps.v` | F N E |
| C77 | `C77_leverarm` | `DirectProps2.v` | F N E |
| C77 | `C77_recovered` | `DirectProps2.v` | F N E |
| C77 | `C77_refused` | `DirectProps2.v` | F N E |
| C77 | `C77_reachable` | `DirectProps2.v` | F N E |
| C78 | `C78_timeshift` | `DirectProps3.v` | F E |
| C78 | `C78_closed_form` | `DirectProps3.v` | F E |
| C78 | `C78_recovered` | `DirectProps3.v` | F E |
| C79 | `C79_optimal` | `DirectProps3.v` | F N E |
| C79 | `C79_recovered` | `DirectProps3.v` | F N E |
| C79 | `C79_refused` | `DirectProps3.v` | none |
| C79 | `C79_missing_refuted` | `DirectProps3.v` | none |
| C80 | `C80_misclosures` | `JacProps.v` | F N E |
| C80 | `C80_shape` | `JacProps.v` | F N E |
| C80 | `C80_design` | `JacProps.v` | F N E |
| C81 | `C81_condition` | `JacProps.v` | F N E |
| C81 | `C81_inside` | `JacProps.v` | F N E |
| C82 | `C82_optimal` | `GhmProps.v` | F N E |
| C82 | `C82_unique` | `GhmProps.v` | F N E |
| C82 | `C82_exists` | `InitProps.v` | F N E |
| C83 | `C83_fixed_point` | `GhmProps.v` | F N E |
| C84 | `C84_adjustment` | `GhmProps.v` | F N E |
| C84 | `C84_estimate` | `GhmProps.v` | F N E |
| C84 | `C84_total` | `InitProps.v` | F N E |
| C84 | `C84_variances_refuted` | `GhmProps.v` | F N E |
| C85 | `C85_factor` | `GhmProps.v` | F E |
| C85 | `C85_scaled_factor` | `GhmProps.v` | F E |
| C85 | `C85_scale_free` | `GhmProps.v` | F N E |
| C86 | `C86_similarity` | `InitProps.v` | F N E C |
| C87 | `C87_lever` | `InitProps.v` | F N E C |
| C88 | `C88_partial` | `EqProps.v` | F E |
| C88 | `C88_reflexive` | `EqProps.v` | F E |
| C88 | `C88_refuted_raises` | `EqProps.v` | F E |
| C88 | `C88_refuted_length` | `EqProps.v` | F E |
| C88 | `C88_refuted_time` | `EqProps.v` | F E |
| C88 | `C88_refuted_symmetric` | `EqProps.v` | F E |
| C88 | `C88_refuted_orientation` | `EqProps.v` | F E |
| C89 | `C89_partial` | `EqProps.v` | F E |
| C89 | `C89_refuted` | `EqProps.v` | F N E |
| C89 | `C89_refuted_rotations` | `EqProps.v` | F N E |
| C90 | `C90_partial` | `EqProps.v` | F N E |
| C90 | `C90_refuted` | `EqProps.v` | F N E |
| C90 | `C90_refuted_empty` | `EqProps.v` | F N E |
| C91 | `C91` | `RosProps.v` | F N E |
| C91 | `C91_errors` | `RosProps.v` | F N E |
| C92 | `C92_partial` | `KmlProps.v` | F E |
| C92 | `C92_local` | `KmlProps.v` | F E |
| C92 | `C92_refuted_line` | `KmlProps.v` | F E |
| C92 | `C92_refuted` | `KmlProps.v` | F E |
| C93 | `C93_result` | `AlignProps.v` | F N E |
| C93 | `C93_similarity` | `AlignProps.v` | F N E C |
| C93 | `C93_mounting` | `AlignProps.v` | F N E C |
| C93 | `C93_lever` | `AlignProps.v` | F N E C |
| C94 | `C94_similarity` | `AlignProps.v` | F N E C |
| C94 | `C94_mounting` | `AlignProps.v` | F N E C |
| C94 | `C94_lever` | `AlignProps.v` | F N E C |
| C95 | `scipy_exact` | `ScaleProps.v` | F N E |
| C95 | `scipy_contract` | `ScaleProps.v` | F N E C |
| C95 | `C95_partial` | `ScaleProps.v` | F N E |
| C95 | `C95_alignment_partial` | `ScaleProps.v` | F N E |
| C95 | `C95_refuted` | `ScaleProps.v` | F N E |
| C96 | `C96_partial` | `PlotProps.v` | F E |
| C96 | `C96_refuted` | `PlotProps.v` | F E |
| C97 | `C97` | `PlotProps.v` | F N E |
| C98 | `C98_angles` | `AngProps.v` | F N E |
| C98 | `C98_invariant` | `AngProps.v` | F N E |
| C98 | `C98_statistics` | `AngProps.v` | F N E |
| C98 | `C98_refuted` | `AngProps.v` | F N E |
| C98 | `C98_bias` | `AngProps.v` | F N E |
| C98 | `rotvec_witness` | `AngProps.v` | F N E C |
| C99 | `C99_positions` | `AngProps.v` | F N E |
| C99 | `C99_rotations` | `AngProps.v` | F N E |
| C100 | `C100_partial` | `DrawProps.v` | F E |
| C100 | `C100_exactly_partial` | `DrawProps.v` | F E |
| C100 | `C100_refuted` | `DrawProps.v` | F N E C |
| C100 | `C100_plot_refuted` | `DrawProps.v` | F N E |
| C100 | `C100_plot_partial` | `DrawProps.v` | F N E |
| C101 | `C101_partial` | `TableProps.v` | F N E |
| C101 | `C101_refuted` | `TableProps.v` | F N E |
| C102 | `C102` | `TableProps.v` | F N E |
| C103 | `C103_table` | `ViewProps.v` | F |
| C103 | `C103_key` | `ViewProps.v` | none |
| C103 | `C103_rate` | `ViewProps.v` | F E |
| C104 | `C104` | `ViewProps.v` | F N E |
| C104 | `C104_recovered` | `ViewProps.v` | F N E |
| C105 | `C105_partial` | `ViewProps.v` | none |
| C105 | `C105_refuted` | `ViewProps.v` | F E |
| C106 | `C106` | `ViewProps.v` | F E |
| C106 | `C106_letters` | `ViewProps.v` | F E |
| C106 | `C106_map_partial` | `ViewProps.v` | F E |
| C106 | `C106_refuted` | `ViewProps.v` | F E |
| C107 | `C107_bars` | `ViewProps.v` | F N E |
| C107 | `C107_orientations` | `ViewProps.v` | F N E |
| C107 | `C107_label_partial` | `ViewProps.v` | F N E |
| C107 | `C107_refuted` | `ViewProps.v` | F N E |
| C108 | `C108_partial` | `ViewProps.v` | F N E |
| C108 | `C108_refuted` | `ViewProps.v` | F N E |
| C109 | `C109_single` | `PageProps.v` | F N E |
| C109 | `C109_multi` | `PageProps.v` | F |
| C109 | `C109_refuted` | `PageProps.v` | F N E |
| C110 | `C110_partial` | `PageProps.v` | none |
| C110 | `C110_written` | `PageProps.v` | none |
| C110 | `C110_refuted` | `PageProps.v` | none |
| C110 | `C110_unwritten` | `PageProps2.v` | none |
| C111 | `C111` | `PageProps.v` | F N E |
| C111 | `C111_orientations` | `PageProps.v` | F N E |
| C112 | `C112_partial` | `PageProps.v` | F E |
| C112 | `C112_refuted` | `PageProps.v` | F E |
| C113 | `C113` | `PageProps.v` | F E |
| C114 | `C114_partial` | `PageProps.v` | F N E |
| C114 | `C114_refuted` | `PageProps.v` | F N E |
| C114 | `C114_apart` | `PageProps.v` | F E |
| C115 | `C115` | `BiasProps.v` | F N E |
| C115 | `C115_best` | `BiasProps.v` | F N E |
| C115 | `C115_directed` | `BiasProps.v` | F N E |
| C116 | `C116_partial` | `PathProps.v` | F E |
| C116 | `C116_refuted` | `PathProps.v` | F N E |
| C117 | `C117_path` | `PathProps.v` | F E |
| C117 | `C117_inserted` | `PathProps.v` | none |
| C118 | `C118_propagation` | `CovProps.v` | F N E |
| C118 | `C118_positive` | `CovProps.v` | F N E |
| C118 | `C118_rescaled` | `CovProps.v` | F N E |
| C118 | `C118_adjustment` | `CovProps.v` | F N E |
| C118 | `C118_estimate` | `CovProps.v` | F N E |
| C119 | `C119_partial` | `MplProps.v` | F N E |
| C119 | `C119_refuted` | `MplProps.v` | F N E |
| C119 | `C119_report` | `MplProps.v` | F N E |
| C120 | `C120_partial` | `MplProps.v` | F N E |
| C120 | `C120_refuted` | `MplProps.v` | F N E C |
| C121 | `C121_abscissa` | `MplProps.v` | none |
| C121 | `C121_partial` | `MplProps.v` | none |
| C121 | `C121_refuted` | `MplProps.v` | F |
| C122 | `C122_partial` | `MplProps.v` | F N E |
| C122 | `C122_line_partial` | `MplProps.v` | F |
| C122 | `C122_refuted` | `MplProps.v` | F E |
| C123 | `C123_partial` | `SmoothProps.v` | F E |
| C123 | `C123_refuted` | `SmoothProps.v` | F E |
| C124 | `C124_lap` | `SmoothProps.v` | F N E |
| C125 | `C125_cross` | `SmoothProps.v` | F E |
| C126 | `C126_summary` | `SumProps.v` | F N E |
| C127 | `C127_partial` | `GroupProps.v` | F N E |
| C127 | `C127_refuted` | `GroupProps.v` | F N E |
| C128 | `C128_found` | `VoxProps.v` | F N E |
| C128 | `C128_partial` | `VoxProps.v` | F N E |
| C128 | `C128_refuted` | `VoxProps.v` | F N E |
| C129 | `C129_crop` | `LawProps.v` | F E |
| C129 | `C129_match` | `LawProps.v` | F E |
| C129 | `C129_intersect_partial` | `LawProps.v` | F E |
| C129 | `C129_refuted` | `LawProps.v` | F E |
| C129 | `C129_interpolate` | `LawProps.v` | F E |
| C129 | `C129_steps` | `LawProps.v` | F E |
| C130 | `C130_order_partial` | `LawProps.v` | F N E |
| C130 | `C130_steps_partial` | `LawProps.v` | F N E |
| C130 | `C130_refuted` | `LawProps.v` | F N E |
| C131 | `C131_spatial` | `RematchProps.v` | F N E |
| C131 | `C131_temporal` | `RematchProps.v` | F N E |
| C131 | `C131_interpolation` | `RematchProps.v` | F E |
| C131 | `C131_settings` | `RematchProps.v` | F N E |
| C132 | `C132_sources` | `FrameProps.v` | F N E |
| C132 | `C132_targets` | `FrameProps.v` | F N E |
| C132 | `C132_order` | `FrameProps.v` | F N E |
| C132 | `C132_found` | `FrameProps.v` | F N E |
| C133 | `C133_transformation` | `CommuteProps.v` | F E |
| C133 | `C133_alignment` | `CommuteProps.v` | F N E |
| C133 | `C133_interpolation` | `CommuteProps.v` | F E |
| C133 | `C133_merging` | `CommuteProps.v` | F N E |
| C134 | `C134_selections` | `EmptyProps.v` | F E |
| C134 | `C134_left_behind_refuted` | `EmptyProps.v` | F E |
| C134 | `C134_intersect_refuted` | `EmptyProps.v` | F E |
| C134 | `C134_moving` | `EmptyProps.v` | F N E |
| C134 | `C134_merging` | `EmptyProps.v` | F N E |
| C134 | `C134_history` | `EmptyProps.v` | F E |
| C135 | `C135_torn_partial` | `TornProps.v` | F N E |
| C135 | `C135_complete` | `TornProps.v` | none |
| C135 | `C135_unopened` | `TornProps.v` | none |
| C135 | `C135_lost_refuted` | `TornProps.v` | F N E |
| C135 | `C135_unnoticed_refuted` | `TornProps.v` | F N E |
| C135 | `C135_value_refuted` | `TornProps.v` | F N E |
| C135 | `C135_append_refuted` | `TornProps.v` | F N E |
| C136 | `C136_selecting` | `ClockProps.v` | F E |
| C136 | `C136_interpolating` | `ClockProps.v` | F E |
| C136 | `C136_constructing` | `ClockProps.v` | F N E |
| C136 | `C136_merging` | `ClockProps.v` | F N E |
| C136 | `C136_nearest` | `ClockProps.v` | F E |
| C136 | `C136_matching_origin` | `ClockProps.v` | F N E |
| C136 | `C136_relative` | `ClockProps.v` | F N E C |
| C136 | `C136_rpe_origin` | `ClockProps.v` | F N E C |
| C136 | `C136_ate_origin` | `ClockProps.v` | F N E |
| C136 | `C136_assumptions_met` | `ClockProps.v` | F N E |
| C136 | `C136_interpolation_unit_refuted` | `ClockProps.v` | F E |
| C137 | `C137_absolute` | `SwapProps.v` | F N E |
| C137 | `C137_relative` | `SwapProps.v` | F N E C |
| C138 | `C138_selected` | `SwapProps.v` | F N E |
| C138 | `C138_order` | `SwapProps.v` | F N E |
| C139 | `C139_operations` | `LenProps.v` | F E |
| C139 | `C139_constructing` | `LenProps.v` | F N E |
| C139 | `C139_matching` | `LenProps.v` | F N E |
| C139 | `C139_absolute` | `LenProps.v` | F N E |
| C139 | `C139_statistics` | `LenProps.v` | F N E |
| C139 | `C139_relative` | `LenProps.v` | F N E C |
| C139 | `C139_rpe` | `LenProps.v` | F N E C |
| C139 | `C139_assumptions_met` | `LenProps.v` | F N E |
| C140 | `C140_rpe_partial` | `CutProps.v` | F E |
| C140 | `C140_ate_partial` | `CutProps.v` | F N E |
| C140 | `C140_rpe_ends` | `CutProps.v` | none |
| C140 | `C140_ate_ends` | `CutProps.v` | none |
| C140 | `C140_lost_refuted` | `CutProps.v` | F N E |
| C140 | `C140_rpe_unnoticed_refuted` | `CutProps.v` | F E |
| C140 | `C140_ate_unnoticed_refuted` | `CutProps.v` | F N E |
| C140 | `C140_value_refuted` | `CutProps.v` | F E |
| C141 | `C141_round_trip` | `StoreProps.v` | F E |
| C141 | `C141_stopped_partial` | `StoreProps.v` | F E |
| C141 | `C141_refused` | `StoreProps.v` | F E |
| C141 | `C141_unnoticed_refuted` | `StoreProps.v` | F E |
| C141 | `C141_again_refuted` | `StoreProps.v` | F E |
| C141 | `C141_one_column` | `CaseProps.v` | F E |
| C142 | `C142_round_trip` | `JsonProps.v` | F E |
| C142 | `C142_interrupted` | `JsonProps.v` | F E |
| C142 | `C142_not_saved` | `JsonProps.v` | F E |
| C143 | `C143_crop_partial` | `JoinProps.v` | F N E |
| C143 | `C143_refuted` | `JoinProps.v` | F N E |
| C144 | `C144_history` | `CacheProps.v` | F N E |
| C144 | `C144_later` | `CacheProps.v` | F N E |
| C144 | `C144_memory_refuted` | `CacheProps.v` | F N E |
| C145 | `C145_distinct_partial` | `NameProps.v` | F N E |
| C145 | `C145_given` | `NameProps.v` | F N E |
| C145 | `C145_taken_refuted` | `NameProps.v` | F N E |
| C146 | `C146_parameters` | `AliasProps.v` | none |
| C146 | `C146_settings_partial` | `AliasProps.v` | none |
| C146 | `C146_own_settings_partial` | `AliasProps.v` | none |
| C146 | `C146_separate` | `AliasProps2.v` | none |
| C146 | `C146_default_refuted` | `AliasProps.v` | none |
| C146 | `C146_result_refuted` | `AliasProps.v` | none |
| C147 | `C147_history` | `InfoProps.v` | F N E |
| C147 | `C147_length_partial` | `InfoProps.v` | F N E |
| C147 | `C147_crop` | `InfoProps.v` | F N E |
| C147 | `C147_length_refuted` | `InfoProps.v` | F N E |
| C148 | `C148_rate` | `InfoProps.v` | F E |
| C148 | `C148_order` | `InfoProps.v` | F E |
| C148 | `C148_few` | `InfoProps.v` | F E |
| C148 | `C148_even` | `InfoProps.v` | F E |
| C149 | `C149_new` | `SpeedProps.v` | F N E |
| C149 | `C149_limit` | `SpeedProps.v` | F N E |
| C149 | `C149_history` | `SpeedProps.v` | F N E |
| C149 | `C149_crop` | `SpeedProps.v` | F E |
| C149 | `C149_last_refuted` | `SpeedProps.v` | F N E |
| C150 | `C150_absolute` | `StabProps.v` | F N E |
| C150 | `C150_relative` | `StabProps.v` | F N E C |
| C150 | `C150_interpolation` | `StabProps.v` | F N E |
| C150 | `C150_length` | `StabProps.v` | F N E |
| C150 | `C150_files` | `StabProps.v` | F N E |
| C150 | `C150_along_refuted` | `StabProps.v` | F N E C |
| C151 | `C151_crop` | `LocalProps.v` | F E |
| C151 | `C151_any` | `LocalProps.v` | F E |
| C151 | `C151_local` | `LocalProps.v` | F E |
| C151 | `C151_order` | `LocalProps.v` | F E |
| C151 | `C151_times_refuted` | `LocalProps.v` | F E |
| C151 | `C151_speed_refuted` | `LocalProps.v` | F E |
| C152 | `C152_names` | `DictProps.v` | F N E |
| C152 | `C152_dict` | `DictProps.v` | F |
| C152 | `C152_history` | `DictProps.v` | F |
| C152 | `C152_last` | `DictProps.v` | F |
| C152 | `C152_lost_refuted` | `DictProps.v` | F N E |
| C152 | `C152_sum` | `DictProps.v` | F E |
| C152 | `C152_sizes` | `DictProps.v` | F |
| C153 | `C153_spatial` | `LooseProps.v` | F N E |
| C153 | `C153_temporal` | `LooseProps.v` | F N E |
| C153 | `C153_intersect` | `LooseProps.v` | F E |
| C153 | `C153_longer` | `LooseProps.v` | F N E C |
| C153 | `C153_pairs_refuted` | `LooseProps.v` | F N E |
| C154 | `C154_reads` | `ReadProps.v` | F N E |
| C154 | `C154_rotations` | `ReadProps.v` | F N E |
| C154 | `C154_refuses` | `ReadProps.v` | F N E |
| C155 | `C155_configured` | `StdProps.v` | F N E |
| C155 | `C155_ratios` | `StdProps.v` | F N E |
| C155 | `C155_test` | `StdProps.v` | F E |
| C155 | `C155_smaller_error` | `StdProps.v` | F E |
| C156 | `C156_exists` | `CycleProps.v` | F N E |
| C156 | `C156_values_partial` | `CycleProps.v` | F N E |
| C156 | `C156_file` | `CycleProps.v` | F N E |
| C156 | `C156_drift_partial` | `CycleProps.v` | F N E |
| C156 | `C156_orientation_refuted` | `CycleProps.v` | F N E |
| C157 | `C157_interpolated` | `MotionProps.v` | F N E |
| C157 | `C157_matched` | `MotionProps.v` | F N E |
| C157 | `C157_measured` | `MotionProps.v` | F N E |
| C157 | `C157_nearest` | `MotionProps.v` | F N E |
| C157 | `C157_errors` | `MotionProps.v` | F N E |
| C157 | `C157_reached` | `MotionProps.v` | F N E |
| C158 | `C158_displacement` | `DriftProps.v` | F N E C |
| C158 | `C158_drift` | `DriftProps.v` | F N E C |
| C158 | `C158_offset` | `DriftProps.v` | F N E C |
| C158 | `C158_scale` | `DriftProps.v` | F N E C |
| C158 | `C158_heading` | `DriftProps.v` | F N E C |
| C158 | `C158_plain` | `DriftProps.v` | F N E C |
| C159 | `C159_bounds` | `BoundProps.v` | F N E C |
| C159 | `C159_per_metre` | `BoundProps.v` | F N E C |
| C159 | `C159_plain` | `BoundProps.v` | F N E C |
| C159 | `C159_growth` | `BoundProps.v` | F N E C |
| C160 | `C160_any` | `OffsetProps.v` | F N E |
| C160 | `C160_straight` | `OffsetProps.v` | F N E |
| C160 | `C160_vehicle` | `OffsetProps.v` | F N E |
| C161 | `C161_jitter` | `JitterProps.v` | F N E |
| C161 | `C161_late` | `JitterProps.v` | F N E |
| C161 | `C161_hidden` | `JitterProps.v` | F N E |
| C161 | `C161_noise` | `NoiseProps.v` | F N E |
| C161 | `C161_noise_error` | `NoiseProps.v` | F N E |
| C161 | `C161_equal_stamps_refuted` | `JitterProps.v` | F N E |
| C162 | `C162_linear` | `FitProps.v` | F E |
| C162 | `C162_frame` | `FitProps.v` | F E |
| C162 | `C162_trajectory` | `FitProps.v` | F E |
| C162 | `C162_again` | `FitProps.v` | F E |
| C162 | `C162_centre` | `FitProps.v` | F E |
| C162 | `C162_closer` | `FitProps.v` | F N E |
| C163 | `C163` | `TurnProps.v` | F N E |
| C164 | `C164_better` | `BetterProps.v` | F N E |
| C164 | `C164_strict` | `BetterProps.v` | F N E |
| C164 | `C164_spread` | `BetterProps.v` | F N E C |
| C165 | `C165_origin` | `OriginProps.v` | F E |
| C165 | `C165_unit` | `OriginProps.v` | F E |
| C165 | `C165_trajectory_partial` | `OriginProps.v` | F E |
| C165 | `C165_window_unit` | `OriginProps.v` | F E |
| C165 | `C165_window_origin_refuted` | `OriginProps.v` | F E |
| C166 | `C166_spread` | `BackProps.v` | F N E |
| C166 | `C166_back` | `BackProps.v` | F N E |
| C166 | `C166_again` | `BackProps.v` | F N E |
| C166 | `C166_rotation_back` | `BackProps.v` | F N E |
| C166 | `C166_rotation_again` | `BackProps.v` | F N E |
| C167 | `C167_reference` | `SeriesProps.v` | F N E |
| C167 | `C167_same_rate` | `SeriesProps.v` | F N E |
| C167 | `C167_alone_refuted` | `SeriesProps.v` | F N E |
| C168 | `C168_totals` | `WeightProps.v` | F N E |
| C168 | `C168_parameters` | `WeightProps.v` | F N E |
| C168 | `C168_merged` | `WeightProps.v` | F N E |
| C168 | `C168_repeated` | `WeightProps.v` | F N E |
| C168 | `C168_zero` | `WeightProps.v` | F N E |
| C168 | `C168_order` | `WeightProps.v` | F N E |
| C168 | `C168_factor` | `WeightProps.v` | F N E |
| C169 | `C169_sections` | `SectProps.v` | F N E |
| C170 | `C170_similarity` | `GainProps.v` | F N E |
| C170 | `C170_leverarm` | `GainProps.v` | F N E |
| C170 | `C170_timeshift` | `GainProps.v` | F N E |
| C170 | `C170_mean_refuted` | `GainProps.v` | F N E |
