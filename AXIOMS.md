# Axioms

Output of `Print Assumptions`, grouped by the set of axioms listed (generated by tools/gen_axioms.py).
All are axioms of the Coq standard library.

## none (closed under the global context)

* C01_components_partition (PropGraph.v)
* C01_nonvacuous (example) (PropGraph.v)
* C02_fresh_self_edge_always_duplicates (PropGraph.v)
* C02_nonvacuous (example) (PropGraph.v)
* C02_one_vertex_per_index_refuted (PropGraph.v)
* C03_absent_gives_empty (PropGraph.v)
* C03_nonvacuous (example) (PropGraph.v)
* C03_path_is_real (PropGraph.v)
* C03_unconnected_never_terminates (PropGraph.v)
* C03_unconnected_nonvacuous (example) (PropGraph.v)
* C04_min_truncated_weight_partial (PropGraph.v)
* C04_min_weight_for_integer_weights_partial (PropGraph.v)
* C04_min_weight_refuted (PropGraph.v)
* C04_nonvacuous (example) (PropGraph.v)
* C05_different_boards_share_no_id (PropBoard.v)
* C05_generator_and_calibrator_agree (PropBoard.v)
* C05_ids_consecutive_and_disjoint (PropBoard.v)
* C05_prefix (PropBoard.v)
* C05_too_few_sizes_is_undefined (PropBoard.v)
* C06_every_board_gets_first_board_count (PropBoard.v)
* C06_ids_match_markers_refuted (PropBoard.v)
* C06_nonvacuous (example) (PropBoard.v)
* C06_same_size_boards_ok (PropBoard.v)
* C08_earlier_observations_kept (PropData.v)
* C08_tables_hold_exactly_the_insertions (PropData.v)
* C08_unknown_index_is_undefined (PropData.v)
* C09_every_schedule_gives_the_sequential_tables (PropData.v)
* C10_frame_tables_characterised (PropData.v)
* C10_frame_tables_complete_refuted (PropData.v)
* C11_camera_without_board_fails_assertion (PropData.v)
* C11_save_then_load (PropData.v)
* C11_which_files_are_loaded (PropEntering.v)
* C11_which_files_example (example) (PropEntering.v)
* C12_unreadable_image_stores_nothing (PropDetect.v)
* C33_oracles (example) (PropHandEye.v)
* C38_short_vector_undefined (PropFile.v)
* C43_example (example) (PropInput.v)
* C43_files_used (PropInput.v)
* C43_folders (PropInput.v)
* C48_cameras_use_their_detections (PropResidual.v)
* C63_object_is_drawn_by_boards (PropDraw.v)
* C65_names_of_the_files (PropCreate.v)

## `ClassicalDedekindReals.sig_forall_dec`

* C07_board_uses_its_configured_size (PropBoard.v)
* C07_every_configured_board_is_created (PropBoard.v)
* C07_inconsistent_config_refuted (PropBoard.v)
* C07_nb_pts (PropBoard.v)
* C07_nonvacuous (example) (PropBoard.v)
* C16_nonvacuous (example) (PropRansac.v)
* C17_detected_well (example) (PropObjects.v)
* C17_valid_run (example) (PropObjects.v)
* C38_get_then_set (PropFile.v)
* C38_model_not_checked_refuted (PropFile.v)
* C38_set_then_get (PropFile.v)
* C38_setters_independent (PropFile.v)

## `ClassicalDedekindReals.sig_forall_dec`, `FunctionalExtensionality.functional_extensionality_dep`

* C05_nonvacuous (example) (PropBoard.v)
* C07_board_is_planar_grid (PropBoard.v)
* C18_commutes_with_translation (PropGeom.v)
* C18_example (example) (PropGeom.v)
* C18_half_on_each_side (PropGeom.v)
* C18_is_the_median (PropGeom.v)
* C18_majority_decides (PropGeom.v)
* C18_order_independent (PropGeom.v)
* C18_within_range (PropGeom.v)
* C19_nonvacuous (example) (PropGeom.v)
* C19_quaternion_to_rotation (PropGeom.v)
* C19_same_rotation_iff_same_up_to_sign (PropGeom.v)
* C20_average_maximises_agreement (PropGeom.v)
* C20_nonvacuous (example) (PropGeom.v)
* C20_order_does_not_matter (PropGeom.v)
* C20_sign_does_not_matter (PropGeom.v)
* C20_symmetric_psd_trace_one (PropGeom.v)
* C21_action_on_points (PropGeom.v)
* C21_composition (PropGeom.v)
* C21_inverse (PropGeom.v)
* C29_board_pairs (PropChain.v)
* C40_a_single_value_example (example) (PropEntering.v)
* C40_a_single_value_is_a_list (PropEntering.v)
* C40_example (example) (PropInput.v)
* C40_keys_determine_settings (PropInput.v)
* C40_lens_models (PropInput.v)
* C40_missing_key_is_zero (PropInput.v)
* C40_quaternion_averaging_always_off (PropInput.v)
* C40_quaternion_averaging_refuted (PropInput.v)
* C40_which_files_are_loaded (PropInput.v)
* C41_border_rule (PropIntrinsic.v)
* C41_camera_without_boards_aborts (PropIntrinsic.v)
* C41_example (example) (PropIntrinsic.v)
* C41_initial_subset (PropIntrinsic.v)
* C41_intrinsics_are_set (PropIntrinsic.v)
* C41_never_undefined (PropIntrinsic.v)
* C41_perspective_uses_all_drawn (PropIntrinsic.v)
* C41_rejected_boards_not_replaced_refuted (PropIntrinsic.v)
* C58_set_up_as_configured (PropApp.v)
* C62_average_over_all_entries_refuted (PropReport.v)
* C62_later_entries_ignored (PropReport.v)
* C62_no_distance_no_bar (PropReport.v)
* C62_when_nothing_is_reported (PropReport.v)
* C63_cameras_are_drawn_in_place (PropDraw.v)
* C63_every_edge_is_drawn_refuted (PropDraw.v)
* C65_all_or_nothing (PropCreate.v)
* C65_completes (PropCreate.v)
* C65_completes_example (example) (PropCreate.v)
* C65_every_board_looked_for_is_printed_refuted (PropCreate.v)
* C65_example (example) (PropCreate.v)
* C65_one_file_per_board (PropCreate.v)
* C65_printed_boards_are_the_ones_looked_for (PropCreate.v)
* C65_usage (PropCreate.v)
* C70_example (example) (PropStored.v)

## `ClassicalDedekindReals.sig_forall_dec`, `ClassicalDedekindReals.sig_not_dec`, `FunctionalExtensionality.functional_extensionality_dep`

* C09_detection_tasks_are_well_formed (PropDetect.v)
* C12_collinear_is_rejected (PropDetect.v)
* C12_image (PropDetect.v)
* C12_image_never_undefined (PropDetect.v)
* C12_one_identifier_per_corner (PropDetect.v)
* C12_stored_identifiers_are_corners (PropEntering.v)
* C12_stored_iff_acceptable (PropDetect.v)
* C13_refined_corner_is_near (PropDetect.v)
* C13_stored_corners (PropDetect.v)
* C14_contrast_is_accepted (PropDetect.v)
* C14_mask (PropDetect.v)
* C14_outside_is_refused (PropDetect.v)
* C14_patch_stays_inside (PropDetect.v)
* C14_patch_values (PropDetect.v)
* C14_rows_match_only_if_counter_was_zero (PropDetect.v)
* C14_rows_match_refuted (PropDetect.v)
* C15_consensus_example (example) (PropRansac.v)
* C16_reported_error_is_mean_distance (PropRansac.v)
* C19_quaternion_round_trip (PropGeom.v)
* C19_rodrigues_gives_rotations (PropGeom.v)
* C19_rotation_to_quaternion_and_back (PropGeom.v)
* C20_average_of_equal_poses (PropGeom.v)
* C20_average_of_equal_rotations (PropGeom.v)
* C20_rotation_vector_median_refuted (PropGeom.v)
* C21_distances_are_preserved (PropGeom.v)
* C21_invert_rotation_vector (PropGeom.v)
* C21_nonvacuous (example) (PropGeom.v)
* C22_boards_are_chained_consistently (PropObjects.v)
* C22_example (example) (PropObjects.v)
* C22_merging_objects_is_consistent (PropObjects.v)
* C23_direct_example (example) (PropGroup.v)
* C23_direct_pairs_are_right_partial (PropGroup.v)
* C23_direct_views_are_right_partial (PropChain.v)
* C23_long_chains_refuted (PropChain.v)
* C23_merged_groups_partial (PropGroup.v)
* C23_merged_groups_refuted (PropGroup.v)
* C23_parallel_example (example) (PropGroup.v)
* C23_poses_are_products_in_path_order (PropChain.v)
* C23_small_groups_are_right_partial (PropChain.v)
* C24_first_objects (PropObjects.v)
* C24_reached_exists (example) (PropObjects.v)
* C24_reference_board_is_the_origin (PropObjects.v)
* C24_reference_camera_is_the_origin (PropObjects.v)
* C26_numbering_is_a_bijection (PropObjects.v)
* C26_saved_objects_are_complete (PropObjects.v)
* C27_every_observation_is_grouped_once (PropObjects.v)
* C27_points_carry_their_object_numbers (PropObjects.v)
* C28_each_observation_once_per_object (PropObjects.v)
* C28_observation_duplicated_refuted (PropObjects.v)
* C28_once_with_one_object (PropObjects.v)
* C29_camera_pairs (PropChain.v)
* C29_exact_board_transforms (PropChain.v)
* C29_exact_camera_transforms (PropChain.v)
* C29_exact_object_transforms (PropChain.v)
* C29_object_pairs (PropChain.v)
* C29_opposite_pairs_are_inverse (PropChain.v)
* C30_camera_groups_partition (PropChain.v)
* C30_groups_at_any_time (PropGroup.v)
* C30_merging_groups (PropGroup.v)
* C31_group_observations (PropGroup.v)
* C32_exact_object_poses (PropGroup.v)
* C32_example (example) (PropGroup.v)
* C32_object_poses_in_groups (PropGroup.v)
* C35_chosen_pair (PropHandEye.v)
* C35_most_frames_refuted (PropHandEye.v)
* C35_poses_stored (PropHandEye.v)
* C36_camera_missing_refuted (PropFile.v)
* C36_contents_of_the_file (PropFile.v)
* C36_example (example) (PropFile.v)
* C36_one_group_is_complete (PropFile.v)
* C36_other_groups_are_lost (PropFile.v)
* C38_example (example) (PropFile.v)
* C38_saved_parameters_reload (PropFile.v)
* C38_several_groups_cannot_reload (PropFile.v)
* C43_images_and_frames (PropInput.v)
* C43_same_frame_same_name_refuted (PropInput.v)
* C44_linked_example (example) (PropStale.v)
* C44_second_merge_crash_refuted (PropStale.v)
* C44_second_merge_partial (PropStale.v)
* C44_unrelated_groups_refuted (PropStale.v)
* C45_asymmetric_poses_refuted (PropHandEye.v)
* C45_no_ties_example (example) (PropHandEye.v)
* C45_symmetric_without_ties_partial (PropHandEye.v)
* C47_refinement_cannot_fail (PropResidual.v)
* C48_every_detection_is_used (PropResidual.v)
* C48_groups_use_their_detections (PropResidual.v)
* C48_objects_use_their_detections (PropResidual.v)
* C49_boards_apart_example (example) (PropResidual.v)
* C57_exact_views_give_the_point (PropTriang.v)
* C57_one_view_is_undefined (PropTriang.v)
* C58_boards_come_from_the_images (PropEntering.v)
* C63_views_are_drawn_in_the_axes_of_their_camera (PropDraw.v)
* C66_board_observation_tells_the_last_pose (PropAccess.v)
* C66_entries_of_a_table (PropAccess.v)
* C66_object_observation_tells_the_last_pose (PropAccess.v)

## `ClassicalDedekindReals.sig_forall_dec`, `ClassicalEpsilon.constructive_indefinite_description`, `Classical_Prop.classic`

* C20_svd_exists (example) (PropGeom.v)
* C34_solver_exists (example) (PropHandEye.v)
* C57_svd_exists (example) (PropTriang.v)

## `ClassicalDedekindReals.sig_forall_dec`, `ClassicalDedekindReals.sig_not_dec`, `Classical_Prop.classic`, `FunctionalExtensionality.functional_extensionality_dep`

* C15_best_consensus_in_bounded_trials (PropRansac.v)
* C15_fewer_than_four_points_is_undefined (PropRansac.v)
* C15_stopping_rule_confidence (PropRansac.v)
* C15_trial_count_fits_int (PropRansac.v)
* C16_exactly_the_inliers_survive (PropRansac.v)
* C16_points_and_ids_stay_aligned (PropRansac.v)
* C17_board_pose_estimation_is_defined (PropObjects.v)
* C17_defined_when_all_observations_are_valid (PropObjects.v)
* C17_object_pose_estimation_defined_iff_enough_points (PropObjects.v)
* C17_too_few_points_refuted (PropObjects.v)
* C20_log_exists (example) (PropGeom.v)
* C21_invert_vectors (PropAccess.v)
* C25_example (example) (PropResidual.v)
* C25_fisheye_has_four_coefficients (PropResidual.v)
* C25_poses_not_refined_have_no_influence (PropResidual.v)
* C25_reports_project_alike (PropResidual.v)
* C25_residuals_are_projection_errors (PropResidual.v)
* C25_tiny_rotations (PropResidual.v)
* C33_four_or_five_poses_refuted (PropHandEye.v)
* C33_plain_method_safe (PropHandEye.v)
* C33_safe_from_six_poses (PropHandEye.v)
* C33_workflow_refuted (PropHandEye.v)
* C34_check_ignores_poses_refuted (PropHandEye.v)
* C34_check_refuted (PropHandEye.v)
* C34_fallback_refuted (PropHandEye.v)
* C34_result_is_rigid (PropMotion.v)
* C34_small_rotation_example (example) (PropHandEye.v)
* C34_small_rotation_partial (PropHandEye.v)
* C35_exact_example (example) (PropHandEye.v)
* C35_exact_relative_poses (PropHandEye.v)
* C37_camera_listed_twice_refuted (PropFile.v)
* C37_contents_of_the_file (PropFile.v)
* C37_first_group_right (PropFile.v)
* C37_frame_of_other_group_refuted (PropFile.v)
* C37_written_iff_projectable (PropFile.v)
* C39_fixed_intrinsics_never_change (PropWorkflow.v)
* C39_intrinsics_change_in_two_steps (PropWorkflow.v)
* C39_missing_file_leaves_memory (PropWorkflow.v)
* C39_the_file_is_kept (PropWorkflow.v)
* C40_missing_iterations_loses_everything (PropInput.v)
* C42_average_between_extremes (PropResidual.v)
* C42_average_is_mean_of_means (PropResidual.v)
* C42_exact_run (example) (PropResidual.v)
* C42_no_observation_no_average (PropResidual.v)
* C42_zero_iff_exact (PropResidual.v)
* C43_saved_image_sizes (PropSizes.v)
* C46_optimised_errors_are_the_reported_errors (PropResidual.v)
* C46_zero_cost_is_zero_average (PropResidual.v)
* C47_refinement_keeps_the_calibration_consistent (PropResidual.v)
* C49_cost_does_not_increase_partial (PropResidual.v)
* C49_exact_calibration_stays (PropResidual.v)
* C49_example (example) (PropResidual.v)
* C50_saved_object_poses_are_not_refined (PropWorkflow.v)
* C51_completed_runs_are_consistent (PropWorkflow.v)
* C52_exact_data_exact_calibration (PropRig.v)
* C52_starting_from_a_file (PropRig.v)
* C53_wrong_corners_do_not_matter (PropOutliers.v)
* C54_a_board_with_few_corners_left_cannot_be_reused (PropSaved.v)
* C54_saved_keypoints_are_what_is_left (PropSaved.v)
* C55_completed_runs_had_four_corners (PropComplete.v)
* C55_every_image_needs_four_corners (PropComplete.v)
* C55_one_camera (PropComplete.v)
* C55_one_camera_and_the_log (PropComplete.v)
* C55_plain_hand_eye_is_total (PropComplete.v)
* C55_the_log_can_stop_a_run (PropComplete.v)
* C55_the_second_merge_decides (PropComplete.v)
* C55_without_pairs_the_corners_decide (PropComplete.v)
* C56_detection_images (PropImages.v)
* C56_no_error_no_red (PropImages.v)
* C56_reprojection_images (PropImages.v)
* C57_best_candidate_in_bounded_rounds (PropTriang.v)
* C57_distorted_views_refuted (PropTriang.v)
* C57_exact_example (example) (PropTriang.v)
* C57_fewer_than_four_views_is_undefined (PropTriang.v)
* C57_robust_exact (PropTriang.v)
* C57_two_views_suffice_refuted (PropTriang.v)
* C58_a_completed_calibration_is_saved (PropApp.v)
* C58_folders_made (PropApp.v)
* C58_interrupted_anywhere (PropApp.v)
* C58_no_result_overwrites_another (PropApp.v)
* C58_pictures (PropApp.v)
* C58_results_come_from_a_completed_run (PropApp.v)
* C58_saved_lens_models (PropApp.v)
* C58_what_is_written (PropApp.v)
* C58_wrong_arguments (PropApp.v)
* C59_calibrating_the_cameras (PropWhole.v)
* C59_exact_data_exact_files (PropWhole.v)
* C60_running_again (PropRerun.v)
* C60_saved_files_can_be_calibrated_again (PropRerun.v)
* C60_what_the_second_run_starts_from (PropRerun.v)
* C61_analysis_of_an_exact_run (PropScripts.v)
* C61_every_camera_is_needed (PropAnalysis.v)
* C61_example_of_errors (example) (PropAverage.v)
* C61_rotation_error_is_the_angle (PropAnalysis.v)
* C61_several_groups_cannot_be_compared (PropReport.v)
* C61_the_numbers_are_averages (PropAverage.v)
* C61_true_cameras_have_no_error (PropAnalysis.v)
* C61_zero_errors_mean_agreement (PropAnalysis.v)
* C62_a_bar_for_every_frame (PropReport.v)
* C62_bars_are_mean_errors (PropReport.v)
* C62_example (example) (PropReport.v)
* C64_application (PropMotion.v)
* C64_exact_without_common_views (PropApart.v)
* C64_motion_relates_cameras (PropApart.v)
* C64_separate_cameras (PropApart.v)
* C64_two_cameras (PropApart.v)
* C65_impossible_markers (PropCreate.v)
* C66_every_rotation_vector_comes_back_refuted (PropAccess.v)
* C66_example (example) (PropAccess.v)
* C66_float_example (example) (PropAccess.v)
* C66_float_vectors_come_back (PropAccess.v)
* C66_floats_of_a_matrix (PropAccess.v)
* C66_table_tells_the_last_pose (PropAccess.v)
* C67_unit_of_length (PropScale.v)
* C68_same_boards_same_objects (PropRecord.v)
* C68_same_cameras_same_calibration (PropRecord.v)
* C69_also_with_the_logged_numbers (PropUnseen.v)
* C69_the_application_does_the_same (PropUnseenApp.v)
* C69_unseen_boards_have_no_influence (PropUnseen.v)
* C70_image_files_have_no_influence (PropStored.v)
* C71_image_sizes_have_no_influence (PropResized.v)

## `ClassicalDedekindReals.sig_forall_dec`, `ClassicalEpsilon.constructive_indefinite_description`, `Classical_Prop.classic`, `FunctionalExtensionality.functional_extensionality_dep`

* C34_rigid_solver_exists (example) (PropMotion.v)

## `ClassicalDedekindReals.sig_forall_dec`, `ClassicalDedekindReals.sig_not_dec`, `ClassicalEpsilon.constructive_indefinite_description`, `Classical_Prop.classic`, `FunctionalExtensionality.functional_extensionality_dep`

* C39_example (example) (PropRig.v)
* C43_sizes_example (example) (PropSizes.v)
* C47_solver_exists (example) (PropResidual.v)
* C49_several_groups_can_get_worse_refuted (PropUndo.v)
* C50_poses_relative_to_reference_camera_refuted (PropRig.v)
* C52_example (example) (PropRig.v)
* C52_three_cameras_example (example) (PropRig.v)
* C53_example (example) (PropOutliers.v)
* C54_all_detected_corners_are_saved_refuted (PropSaved.v)
* C54_example (example) (PropSaved.v)
* C55_example_log (example) (PropComplete.v)
* C55_example_stopped (example) (PropComplete.v)
* C55_example_through (example) (PropComplete.v)
* C56_example (example) (PropImages.v)
* C58_boards_come_from_the_images_example (example) (PropEntering.v)
* C58_cameras_are_kept_refuted (PropWhole.v)
* C58_returning_0_means_saved_refuted (PropWhole.v)
* C59_example (example) (PropWhole.v)
* C59_images_example (example) (PropWhole.v)
* C59_missing_parameters_refuted (PropWhole.v)
* C60_example (example) (PropRerun.v)
* C61_example (example) (PropScripts.v)
* C63_views_in_place_refuted (PropScripts.v)
* C64_application_example (example) (PropMotion.v)
* C64_example (example) (PropApart.v)
* C67_wrong_sizes_show_in_the_error_refuted (PropScale.v)
* C68_example (example) (PropRecord.v)
* C69_application_example (example) (PropUnseenApp.v)
* C69_example (example) (PropUnseen.v)
* C71_example (example) (PropResized.v)
