{
 "claims": [
  {
   "property": "C01",
   "status": "proved",
   "theorems": [
    "C01_components_partition"
   ],
   "note": ""
  },
  {
   "property": "C02",
   "status": "proved",
   "theorems": [
    "C02_one_vertex_per_index_refuted",
    "C02_fresh_self_edge_always_duplicates"
   ],
   "note": "The claim is false of the code; proved: the refutation, and that every fresh self edge duplicates the vertex."
  },
  {
   "property": "C03",
   "status": "proved",
   "theorems": [
    "C03_path_is_real",
    "C03_absent_gives_empty",
    "C03_unconnected_never_terminates"
   ],
   "note": ""
  },
  {
   "property": "C04",
   "status": "proved",
   "theorems": [
    "C04_min_weight_refuted",
    "C04_min_truncated_weight_partial",
    "C04_min_weight_for_integer_weights_partial"
   ],
   "note": "The claim is false of the code (refuted); proved instead: minimality for the truncated weights, hence for integer weights."
  },
  {
   "property": "C05",
   "status": "proved",
   "theorems": [
    "C05_ids_consecutive_and_disjoint",
    "C05_different_boards_share_no_id",
    "C05_too_few_sizes_is_undefined",
    "C05_prefix",
    "C05_generator_and_calibrator_agree"
   ],
   "note": ""
  },
  {
   "property": "C06",
   "status": "proved",
   "theorems": [
    "C06_ids_match_markers_refuted",
    "C06_every_board_gets_first_board_count",
    "C06_same_size_boards_ok"
   ],
   "note": "The claim is false of the code (refuted by a witness); proved: every board gets the first board's count, correct exactly when marker counts agree."
  },
  {
   "property": "C07",
   "status": "proved",
   "theorems": [
    "C07_board_is_planar_grid",
    "C07_nb_pts",
    "C07_board_uses_its_configured_size",
    "C07_every_configured_board_is_created",
    "C07_inconsistent_config_refuted"
   ],
   "note": ""
  },
  {
   "property": "C08",
   "status": "proved",
   "theorems": [
    "C08_tables_hold_exactly_the_insertions",
    "C08_earlier_observations_kept",
    "C08_unknown_index_is_undefined"
   ],
   "note": ""
  },
  {
   "property": "C09",
   "status": "proved",
   "theorems": [
    "C09_every_schedule_gives_the_sequential_tables",
    "C09_detection_tasks_are_well_formed"
   ],
   "note": ""
  },
  {
   "property": "C10",
   "status": "proved",
   "theorems": [
    "C10_frame_tables_complete_refuted",
    "C10_frame_tables_characterised"
   ],
   "note": "The claim is false of the code: refuted by a witness; the exact contents of the frame tables are proved instead."
  },
  {
   "property": "C11",
   "status": "proved",
   "theorems": [
    "C11_save_then_load",
    "C11_camera_without_board_fails_assertion",
    "C11_which_files_are_loaded"
   ],
   "note": "YAML writing/parsing trusted; the assertion is that of a debug build."
  },
  {
   "property": "C12",
   "status": "proved",
   "theorems": [
    "C12_stored_iff_acceptable",
    "C12_one_identifier_per_corner",
    "C12_collinear_is_rejected",
    "C12_image",
    "C12_image_never_undefined",
    "C12_unreadable_image_stores_nothing",
    "C12_stored_identifiers_are_corners"
   ],
   "note": ""
  },
  {
   "property": "C13",
   "status": "proved",
   "theorems": [
    "C13_refined_corner_is_near",
    "C13_stored_corners"
   ],
   "note": ""
  },
  {
   "property": "C14",
   "status": "proved",
   "theorems": [
    "C14_patch_stays_inside",
    "C14_patch_values",
    "C14_outside_is_refused",
    "C14_contrast_is_accepted",
    "C14_mask",
    "C14_rows_match_only_if_counter_was_zero",
    "C14_rows_match_refuted"
   ],
   "note": "Index safety and interpolation bounds proved in full; the row-count part is false of the code (refuted, with the exact condition under which it holds)."
  },
  {
   "property": "C15",
   "status": "proved",
   "theorems": [
    "C15_best_consensus_in_bounded_trials",
    "C15_fewer_than_four_points_is_undefined",
    "C15_trial_count_fits_int",
    "C15_stopping_rule_confidence"
   ],
   "note": "solvePnP, projectPoints and shuffles are oracles; real arithmetic."
  },
  {
   "property": "C16",
   "status": "proved",
   "theorems": [
    "C16_points_and_ids_stay_aligned",
    "C16_exactly_the_inliers_survive",
    "C16_reported_error_is_mean_distance"
   ],
   "note": ""
  },
  {
   "property": "C17",
   "status": "proved",
   "theorems": [
    "C17_board_pose_estimation_is_defined",
    "C17_object_pose_estimation_defined_iff_enough_points",
    "C17_defined_when_all_observations_are_valid",
    "C17_too_few_points_refuted"
   ],
   "note": "The claim is false of the code: refuted by a concrete run reaching pose estimation of an object observation with fewer than four points; the stages where it does hold are proved."
  },
  {
   "property": "C18",
   "status": "proved",
   "theorems": [
    "C18_is_the_median",
    "C18_order_independent",
    "C18_within_range",
    "C18_commutes_with_translation",
    "C18_half_on_each_side",
    "C18_majority_decides"
   ],
   "note": ""
  },
  {
   "property": "C19",
   "status": "proved",
   "theorems": [
    "C19_rotation_to_quaternion_and_back",
    "C19_quaternion_to_rotation",
    "C19_same_rotation_iff_same_up_to_sign",
    "C19_quaternion_round_trip",
    "C19_rodrigues_gives_rotations"
   ],
   "note": ""
  },
  {
   "property": "C20",
   "status": "proved",
   "theorems": [
    "C20_order_does_not_matter",
    "C20_sign_does_not_matter",
    "C20_symmetric_psd_trace_one",
    "C20_average_maximises_agreement",
    "C20_average_of_equal_rotations",
    "C20_average_of_equal_poses",
    "C20_rotation_vector_median_refuted"
   ],
   "note": "Proved for quaternion averaging (SVD and Rodrigues as oracles with stated contracts); for the rotation-vector median the claim is refuted."
  },
  {
   "property": "C21",
   "status": "proved",
   "theorems": [
    "C21_invert_vectors",
    "C21_inverse",
    "C21_composition",
    "C21_action_on_points",
    "C21_distances_are_preserved",
    "C21_invert_rotation_vector"
   ],
   "note": ""
  },
  {
   "property": "C22",
   "status": "proved",
   "theorems": [
    "C22_boards_are_chained_consistently",
    "C22_merging_objects_is_consistent"
   ],
   "note": ""
  },
  {
   "property": "C23",
   "status": "proved",
   "theorems": [
    "C23_poses_are_products_in_path_order",
    "C23_small_groups_are_right_partial",
    "C23_direct_views_are_right_partial",
    "C23_long_chains_refuted",
    "C23_merged_groups_partial",
    "C23_direct_pairs_are_right_partial",
    "C23_merged_groups_refuted"
   ],
   "note": "The claim is false of the code for chains of three or more cameras (groups): refuted by concrete runs. Proved: the exact value given (product in reversed order), and that the claim does hold with at most two members, with equal orientations, for a camera that shares at least two views with the first camera of its group, or for the cameras of a group with a relative pose to the reference group (C23_direct_pairs_are_right_partial)."
  },
  {
   "property": "C24",
   "status": "proved",
   "theorems": [
    "C24_reference_board_is_the_origin",
    "C24_reference_camera_is_the_origin",
    "C24_first_objects"
   ],
   "note": ""
  },
  {
   "property": "C25",
   "status": "proved",
   "theorems": [
    "C25_residuals_are_projection_errors",
    "C25_poses_not_refined_have_no_influence",
    "C25_fisheye_has_four_coefficients",
    "C25_tiny_rotations",
    "C25_reports_project_alike"
   ],
   "note": "AngleAxisRotatePoint of Ceres is modelled; rotations with squared angle in (0, 2.2e-16] are linearised by it and deviate by a proved bound."
  },
  {
   "property": "C26",
   "status": "proved",
   "theorems": [
    "C26_numbering_is_a_bijection",
    "C26_saved_objects_are_complete"
   ],
   "note": ""
  },
  {
   "property": "C27",
   "status": "proved",
   "theorems": [
    "C27_every_observation_is_grouped_once",
    "C27_points_carry_their_object_numbers"
   ],
   "note": ""
  },
  {
   "property": "C28",
   "status": "proved",
   "theorems": [
    "C28_each_observation_once_per_object",
    "C28_once_with_one_object",
    "C28_observation_duplicated_refuted"
   ],
   "note": "The claim is false of the code with two or more objects (refuted); the exact multiplicity is proved."
  },
  {
   "property": "C29",
   "status": "proved",
   "theorems": [
    "C29_board_pairs",
    "C29_camera_pairs",
    "C29_object_pairs",
    "C29_opposite_pairs_are_inverse",
    "C29_exact_board_transforms",
    "C29_exact_camera_transforms",
    "C29_exact_object_transforms"
   ],
   "note": ""
  },
  {
   "property": "C30",
   "status": "proved",
   "theorems": [
    "C30_camera_groups_partition",
    "C30_groups_at_any_time",
    "C30_merging_groups"
   ],
   "note": ""
  },
  {
   "property": "C31",
   "status": "proved",
   "theorems": [
    "C31_group_observations"
   ],
   "note": ""
  },
  {
   "property": "C32",
   "status": "proved",
   "theorems": [
    "C32_object_poses_in_groups",
    "C32_exact_object_poses"
   ],
   "note": ""
  },
  {
   "property": "C33",
   "status": "proved",
   "theorems": [
    "C33_safe_from_six_poses",
    "C33_plain_method_safe",
    "C33_four_or_five_poses_refuted",
    "C33_workflow_refuted"
   ],
   "note": "The claim is false of the code for fewer than six common poses (refuted for every behaviour of the library, also through the workflow); proved safe from six poses on, and for any number with the plain method. Library calls (kmeans, shuffle, uniform_int_distribution) by contract."
  },
  {
   "property": "C34",
   "status": "proved",
   "theorems": [
    "C34_check_ignores_poses_refuted",
    "C34_check_refuted",
    "C34_fallback_refuted",
    "C34_small_rotation_partial",
    "C34_result_is_rigid"
   ],
   "note": "The claim is false of the code: the check's verdict is proved independent of the poses, a true solution is rejected and a wrong one accepted, the fall-back returns the identity on exact data. Proved part: exact result when the check happens to pass (C34_small_rotation_partial). The result is always a rigid transform when the solver's is (C34_result_is_rigid)."
  },
  {
   "property": "C35",
   "status": "proved",
   "theorems": [
    "C35_chosen_pair",
    "C35_poses_stored",
    "C35_exact_relative_poses",
    "C35_most_frames_refuted"
   ],
   "note": "Proved: the chosen pair has the maximal number of pairs of simultaneous views, first in index order; poses are stored iff more than three common frames; exactness of the plain method on noise-free data. 'Maximal number of frames' itself is false of the code (refuted)."
  },
  {
   "property": "C36",
   "status": "proved",
   "theorems": [
    "C36_contents_of_the_file",
    "C36_one_group_is_complete",
    "C36_other_groups_are_lost",
    "C36_camera_missing_refuted"
   ],
   "note": "The claim is false of the code: refuted (a camera of another group is missing). Proved: the exact contents of the file, completeness with one group, and that every camera of a group other than the first is lost."
  },
  {
   "property": "C37",
   "status": "proved",
   "theorems": [
    "C37_contents_of_the_file",
    "C37_written_iff_projectable",
    "C37_first_group_right",
    "C37_frame_of_other_group_refuted",
    "C37_camera_listed_twice_refuted"
   ],
   "note": "Exact contents proved; parts of the claim are false of the code (frame_list of later groups contains frames of earlier ones; a camera seeing two objects is listed twice): refuted."
  },
  {
   "property": "C38",
   "status": "proved",
   "theorems": [
    "C38_set_then_get",
    "C38_get_then_set",
    "C38_setters_independent",
    "C38_short_vector_undefined",
    "C38_saved_parameters_reload",
    "C38_several_groups_cannot_reload",
    "C38_model_not_checked_refuted"
   ],
   "note": "YAML and decimal printing trusted; real arithmetic. With one group the saved file reloads the same parameters; with several groups it cannot (proved); the stored distortion model is not checked (refuted)."
  },
  {
   "property": "C39",
   "status": "proved",
   "theorems": [
    "C39_fixed_intrinsics_never_change",
    "C39_the_file_is_kept",
    "C39_missing_file_leaves_memory",
    "C39_intrinsics_change_in_two_steps"
   ],
   "note": ""
  },
  {
   "property": "C40",
   "status": "proved",
   "theorems": [
    "C40_a_single_value_is_a_list",
    "C40_keys_determine_settings",
    "C40_which_files_are_loaded",
    "C40_lens_models",
    "C40_quaternion_averaging_always_off",
    "C40_quaternion_averaging_refuted",
    "C40_missing_key_is_zero",
    "C40_missing_iterations_loses_everything"
   ],
   "note": "False of the code for quaternion_averaging (refuted; always off for every parsed file); proved for all other documented keys, plus what a missing key means. cv::FileStorage reading semantics trusted."
  },
  {
   "property": "C41",
   "status": "proved",
   "theorems": [
    "C41_border_rule",
    "C41_initial_subset",
    "C41_perspective_uses_all_drawn",
    "C41_never_undefined",
    "C41_camera_without_boards_aborts",
    "C41_intrinsics_are_set",
    "C41_rejected_boards_not_replaced_refuted"
   ],
   "note": "Shuffle by its contract (a permutation), OpenCV calibration as oracle. Rejected fisheye boards are not replaced (refuted that a usable board suffices)."
  },
  {
   "property": "C42",
   "status": "proved",
   "theorems": [
    "C42_average_is_mean_of_means",
    "C42_average_between_extremes",
    "C42_zero_iff_exact",
    "C42_no_observation_no_average"
   ],
   "note": "Real arithmetic."
  },
  {
   "property": "C43",
   "status": "proved",
   "theorems": [
    "C43_files_used",
    "C43_folders",
    "C43_images_and_frames",
    "C43_same_frame_same_name_refuted",
    "C43_saved_image_sizes"
   ],
   "note": "cv::glob listing is an oracle. Also refuted: that images of one frame have the same name."
  },
  {
   "property": "C44",
   "status": "proved",
   "theorems": [
    "C44_second_merge_partial",
    "C44_unrelated_groups_refuted",
    "C44_second_merge_crash_refuted"
   ],
   "note": "The claim is false of the code (two refutations: unrelated groups joined; null dereference). Proved part: when all groups that see a corner are linked with group 0, the second merge is defined and changes nothing."
  },
  {
   "property": "C45",
   "status": "proved",
   "theorems": [
    "C45_symmetric_without_ties_partial",
    "C45_asymmetric_poses_refuted"
   ],
   "note": "The claim is false of the code (refuted by a concrete run whose merge fails); proved when no two object pairs tie (C45_symmetric_without_ties_partial). The refuting run is with use of rotation-vector averaging, which the program always selects (C40)."
  },
  {
   "property": "C46",
   "status": "proved",
   "theorems": [
    "C46_optimised_errors_are_the_reported_errors",
    "C46_zero_cost_is_zero_average"
   ],
   "note": ""
  },
  {
   "property": "C47",
   "status": "proved",
   "theorems": [
    "C47_refinement_cannot_fail",
    "C47_refinement_keeps_the_calibration_consistent"
   ],
   "note": "ceres::Solve is an oracle: does not move parameters without influence, does not touch intrinsics that are not parameters, does not increase the cost, stops at cost 0."
  },
  {
   "property": "C48",
   "status": "proved",
   "theorems": [
    "C48_cameras_use_their_detections",
    "C48_objects_use_their_detections",
    "C48_groups_use_their_detections",
    "C48_every_detection_is_used"
   ],
   "note": ""
  },
  {
   "property": "C49",
   "status": "proved",
   "theorems": [
    "C49_cost_does_not_increase_partial",
    "C49_exact_calibration_stays",
    "C49_several_groups_can_get_worse_refuted"
   ],
   "note": "The claim is false of the code for several groups that share an object with several boards (refuted by a reachable state and a solver that is optimal on every problem). Proved for objects, for groups with fixed boards, for a single group, for any groups no two of which see the same board other than an object's reference board, and that exact calibrations stay. ceres::Solve is an oracle."
  },
  {
   "property": "C50",
   "status": "proved",
   "theorems": [
    "C50_poses_relative_to_reference_camera_refuted",
    "C50_saved_object_poses_are_not_refined"
   ],
   "note": "The claim of the README is refuted (C50_poses_relative_to_reference_camera_refuted): what is proved is what the code saves instead."
  },
  {
   "property": "C51",
   "status": "proved",
   "theorems": [
    "C51_completed_runs_are_consistent"
   ],
   "note": ""
  },
  {
   "property": "C52",
   "status": "proved",
   "theorems": [
    "C52_exact_data_exact_calibration",
    "C52_starting_from_a_file"
   ],
   "note": "At most two cameras, or cameras of equal orientation, or every camera shares two or more views with the first: otherwise the pose chains multiply in the wrong order (C23)."
  },
  {
   "property": "C53",
   "status": "proved",
   "theorems": [
    "C53_wrong_corners_do_not_matter"
   ],
   "note": ""
  },
  {
   "property": "C54",
   "status": "proved",
   "theorems": [
    "C54_saved_keypoints_are_what_is_left",
    "C54_a_board_with_few_corners_left_cannot_be_reused",
    "C54_all_detected_corners_are_saved_refuted"
   ],
   "note": "That the file has all detected corners, as the comment of saveDetectedKeypoints suggests, is refuted."
  },
  {
   "property": "C55",
   "status": "proved",
   "theorems": [
    "C55_every_image_needs_four_corners",
    "C55_the_second_merge_decides",
    "C55_without_pairs_the_corners_decide",
    "C55_one_camera",
    "C55_the_log_can_stop_a_run",
    "C55_one_camera_and_the_log",
    "C55_completed_runs_had_four_corners",
    "C55_plain_hand_eye_is_total"
   ],
   "note": "The condition on the poses between groups is proved for symmetric tables of poses; C45 says when they are symmetric and refutes that they always are. The condition on the corners is proved without it."
  },
  {
   "property": "C56",
   "status": "proved",
   "theorems": [
    "C56_reprojection_images",
    "C56_detection_images",
    "C56_no_error_no_red"
   ],
   "note": "Pixels of the circles and the colours of objects are not modelled beyond centre and owner; cv::imread is the oracle 'readable', cv::imwrite and the directories are trusted. Contents are sets: a corner is drawn several times when there are several objects (C28)."
  },
  {
   "property": "C57",
   "status": "proved",
   "theorems": [
    "C57_exact_views_give_the_point",
    "C57_one_view_is_undefined",
    "C57_best_candidate_in_bounded_rounds",
    "C57_robust_exact",
    "C57_fewer_than_four_views_is_undefined",
    "C57_two_views_suffice_refuted",
    "C57_distorted_views_refuted"
   ],
   "note": "Two views are enough for the linear version only, and lens distortion is ignored (refuted)."
  },
  {
   "property": "C58",
   "status": "proved",
   "theorems": [
    "C58_wrong_arguments",
    "C58_results_come_from_a_completed_run",
    "C58_folders_made",
    "C58_what_is_written",
    "C58_no_result_overwrites_another",
    "C58_set_up_as_configured",
    "C58_saved_lens_models",
    "C58_interrupted_anywhere",
    "C58_pictures",
    "C58_a_completed_calibration_is_saved",
    "C58_boards_come_from_the_images",
    "C58_returning_0_means_saved_refuted",
    "C58_cameras_are_kept_refuted"
   ],
   "note": "File system, images and configuration values are functions of the world; a file that cannot be opened is silently not written, as FileStorage does."
  },
  {
   "property": "C59",
   "status": "proved",
   "theorems": [
    "C59_exact_data_exact_files",
    "C59_calibrating_the_cameras",
    "C59_missing_parameters_refuted"
   ],
   "note": "Exactness of OpenCV's PnP, undistortion and single camera calibration are explicit hypotheses (RigSpec, AppSpec); the limits of C52 apply."
  },
  {
   "property": "C60",
   "status": "proved",
   "theorems": [
    "C60_saved_files_can_be_calibrated_again",
    "C60_running_again",
    "C60_what_the_second_run_starts_from"
   ],
   "note": "The exact-data part is conditional on the same explicit hypotheses on OpenCV as C59; image sizes are not compared."
  },
  {
   "property": "C61",
   "status": "proved",
   "theorems": [
    "C61_rotation_error_is_the_angle",
    "C61_zero_errors_mean_agreement",
    "C61_true_cameras_have_no_error",
    "C61_every_camera_is_needed",
    "C61_the_numbers_are_averages",
    "C61_several_groups_cannot_be_compared",
    "C61_analysis_of_an_exact_run"
   ],
   "note": "Python scripts over the reals; NaN and exceptions are distinct outcomes. Exactness of the run as in C59."
  },
  {
   "property": "C62",
   "status": "proved",
   "theorems": [
    "C62_bars_are_mean_errors",
    "C62_a_bar_for_every_frame",
    "C62_no_distance_no_bar",
    "C62_when_nothing_is_reported",
    "C62_later_entries_ignored",
    "C62_average_over_all_entries_refuted"
   ],
   "note": "\"Every image of the frame counts\" is refuted when a camera sees two objects in one image (C62_average_over_all_entries_refuted)."
  },
  {
   "property": "C63",
   "status": "proved",
   "theorems": [
    "C63_cameras_are_drawn_in_place",
    "C63_every_edge_is_drawn_refuted",
    "C63_object_is_drawn_by_boards",
    "C63_views_are_drawn_in_the_axes_of_their_camera",
    "C63_views_in_place_refuted"
   ],
   "note": "\"Every edge is drawn\" and \"objects are drawn in place among the cameras\" are refuted; what is drawn is proved. matplotlib is not modelled: a drawing is its list of segments and points."
  },
  {
   "property": "C64",
   "status": "proved",
   "theorems": [
    "C64_motion_relates_cameras",
    "C64_exact_without_common_views",
    "C64_two_cameras",
    "C64_separate_cameras",
    "C64_application"
   ],
   "note": "OpenCV's hand-eye solver is an oracle that is right where the motion determines the solution (exact_solver); every two sets of cameras must see boards at once often enough (chains of sets are multiplied in the wrong order, C23); limits of C52 apply within each set. C64_application states it for the files the calibrate application writes, with an example run."
  },
  {
   "property": "C65",
   "status": "proved",
   "theorems": [
    "C65_names_of_the_files",
    "C65_usage",
    "C65_all_or_nothing",
    "C65_one_file_per_board",
    "C65_completes",
    "C65_printed_boards_are_the_ones_looked_for",
    "C65_impossible_markers",
    "C65_every_board_looked_for_is_printed_refuted"
   ],
   "note": "What OpenCV draws is an oracle that may throw; the boards are those of OpenCV < 4.7 (see C06 for later versions); CharucoBoard::create is trusted to refuse fewer than two squares or a marker not smaller than its square. The last part of the claim (all boards of boards_index printed) is refuted."
  },
  {
   "property": "C66",
   "status": "proved",
   "theorems": [
    "C66_table_tells_the_last_pose",
    "C66_entries_of_a_table",
    "C66_board_observation_tells_the_last_pose",
    "C66_object_observation_tells_the_last_pose",
    "C66_float_vectors_come_back",
    "C66_floats_of_a_matrix",
    "C66_every_rotation_vector_comes_back_refuted"
   ],
   "note": "\"Every rotation vector comes back\" is refuted at exactly half a turn. Doubles are real numbers; floats are rounded reals (Flocq's FLT format without the upper limit). cv::Rodrigues from matrix to vector is an oracle (log_ok, log_short), shown to exist. The other models keep poses as matrices, which this property justifies."
  },
  {
   "property": "C67",
   "status": "proved",
   "theorems": [
    "C67_unit_of_length",
    "C67_wrong_sizes_show_in_the_error_refuted"
   ],
   "note": "Stated for runs whose initial intrinsic parameters are the true ones in both units (read from a file, or cv::calibrateCamera being right on exact data), with the hypotheses of C52. That wrong sizes show in the reported error is refuted by two runs."
  },
  {
   "property": "C68",
   "status": "proved",
   "theorems": [
    "C68_same_cameras_same_calibration",
    "C68_same_boards_same_objects"
   ],
   "note": "Exact data as in C59 (or C64 through related_cameras); the hypotheses of both runs are the record exact_start of RecordSpec.v."
  },
  {
   "property": "C69",
   "status": "proved",
   "theorems": [
    "C69_unseen_boards_have_no_influence",
    "C69_also_with_the_logged_numbers",
    "C69_the_application_does_the_same"
   ],
   "note": "Stated for the calibration after detection (same inserted observations in both runs); the random choices of the libraries are the same functions in both runs. That the detection reports nothing of a board that is not seen is the library's part."
  },
  {
   "property": "C70",
   "status": "proved",
   "theorems": [
    "C70_image_files_have_no_influence"
   ],
   "note": ""
  },
  {
   "property": "C71",
   "status": "proved",
   "theorems": [
    "C71_image_sizes_have_no_influence"
   ],
   "note": ""
  }
 ]
}