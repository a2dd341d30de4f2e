{
 "claims": [
  {
   "property": "C01",
   "status": "proved",
   "theorems": [
    "C01_values_are_last_writes",
    "C01_frame"
   ],
   "note": ""
  },
  {
   "property": "C02",
   "status": "proved",
   "theorems": [
    "C02_pending_agrees",
    "C02_handed_values_current"
   ],
   "note": ""
  },
  {
   "property": "C03",
   "status": "proved",
   "theorems": [
    "C03_hands_pending",
    "C03_conserved",
    "C03_record",
    "C03_on_failure_refuted"
   ],
   "note": "Conservation holds for histories whose optimisations succeed; C03_on_failure_refuted: a throwing optimisation loses the factors it took."
  },
  {
   "property": "C04",
   "status": "proved",
   "theorems": [
    "C04_factors_range",
    "C04_factors_for_key"
   ],
   "note": ""
  },
  {
   "property": "C05",
   "status": "proved",
   "theorems": [
    "C05_handed_exact",
    "C05_end_iterator_ub",
    "C05_defined_refuted",
    "C05_reacquired_feature_refuted"
   ],
   "note": "Exact under the libstdc++ reading of the end iterator; C05_defined_refuted: undefined behaviour by the standard; C05_reacquired_feature_refuted: reacquired ids break extraction."
  },
  {
   "property": "C06",
   "status": "proved",
   "theorems": [
    "C06_values_range",
    "C06_no_frame_at_first",
    "C06_landmarks_refuted"
   ],
   "note": "Exact with the stated proviso; C06_landmarks_refuted shows the proviso is needed."
  },
  {
   "property": "C07",
   "status": "proved",
   "theorems": [
    "C07_lower_bound_attained",
    "C07_throws_iff_none",
    "C07_monotone"
   ],
   "note": ""
  },
  {
   "property": "C08",
   "status": "proved",
   "theorems": [
    "C08_named_key_value",
    "C08_unknown_name"
   ],
   "note": ""
  },
  {
   "property": "C09",
   "status": "proved",
   "theorems": [
    "C09_timestamp_last",
    "C09_timestamp_missing",
    "C09_time_between",
    "C09_time_between_throws",
    "C09_time_between_laws"
   ],
   "note": ""
  },
  {
   "property": "C10",
   "status": "proved",
   "theorems": [
    "C10_pairs",
    "C10_listed",
    "C10_listed_once",
    "C10_landmark_value",
    "C10_landmarks_all",
    "C10_landmarks_at"
   ],
   "note": ""
  },
  {
   "property": "C11",
   "status": "proved",
   "theorems": [
    "C11_gap_attaches_previous_pose",
    "C11_missed_keys_refuted"
   ],
   "note": "General statement for every gap plus refuting witness."
  },
  {
   "property": "C12",
   "status": "proved",
   "theorems": [
    "C12_missing_pose_fails",
    "C12_retry_always_fails",
    "C12_success_registers_all"
   ],
   "note": "Retry after failure always throws (finding); success registers all tracks."
  },
  {
   "property": "C13",
   "status": "proved",
   "theorems": [
    "C13_window_exact",
    "C13_once",
    "C13_off",
    "C13_beyond_throws"
   ],
   "note": "For histories whose optimiser calls succeed."
  },
  {
   "property": "C14",
   "status": "proved",
   "theorems": [
    "C14_landmark_window_refuted"
   ],
   "note": "Refuting witness; the general dependence on the id is C13_window_exact with the landmark symbol."
  },
  {
   "property": "C15",
   "status": "proved",
   "theorems": [
    "C15_mutual_exclusion",
    "C15_only_owner",
    "C15_serialisable",
    "C15_lock_step",
    "C15_callbacks_never_fail"
   ],
   "note": "Lock step and no failure for executions fed by the contract environment (allowed, BeHealthy.v); exclusion, ownership and serialisability for every reachable state."
  },
  {
   "property": "C16",
   "status": "proved",
   "theorems": [
    "C16_optimised_once_in_order",
    "C16_published_in_order"
   ],
   "note": ""
  },
  {
   "property": "C17",
   "status": "proved",
   "theorems": [
    "C17_progress",
    "C17_quiescent_done"
   ],
   "note": "Strong fairness of threads (mutex hand-over) is an assumption; enough_workers is needed (C56)."
  },
  {
   "property": "C18",
   "status": "proved",
   "theorems": [
    "C18_who_leaks",
    "C18_leak_is_forever",
    "C18_imu_before_init_refuted",
    "C18_barometer_variance_refuted",
    "C18_shutdown_refuted"
   ],
   "note": "C18_who_leaks: the mutex is free or held inside a section unless an imu, stereo or barometer callback left it locked; refuting witnesses for the three error paths."
  },
  {
   "property": "C19",
   "status": "proved",
   "theorems": [
    "C19_barometer_chain"
   ],
   "note": ""
  },
  {
   "property": "C20",
   "status": "proved",
   "theorems": [
    "C20_valid_covariance_rejected",
    "C20_factor_created_iff_invalid",
    "C20_valid_estimate_rejected_end_to_end",
    "C20_invalid_estimate_used_end_to_end"
   ],
   "note": "The factor is created exactly for invalid covariances; also end to end from the publisher of the registration."
  },
  {
   "property": "C21",
   "status": "proved",
   "theorems": [
    "C21_total",
    "C21_follows",
    "C21_positive",
    "C21_in_order"
   ],
   "note": ""
  },
  {
   "property": "C22",
   "status": "proved",
   "theorems": [
    "C22_fails_exactly",
    "C22_zero_step_refuted",
    "C22_fails_exactly_repeated",
    "C22_late_start"
   ],
   "note": "Exact characterisation for strictly increasing stamps; C22_zero_step_refuted is the reachable failure."
  },
  {
   "property": "C23",
   "status": "proved",
   "theorems": [
    "C23_keeps",
    "C23_suffix",
    "C23_hold_kept",
    "C23_longest_prefix",
    "C23_idempotent",
    "C23_monotone"
   ],
   "note": ""
  },
  {
   "property": "C24",
   "status": "proved",
   "theorems": [
    "C24_defined",
    "C24_value",
    "C24_pressure"
   ],
   "note": "double read as R."
  },
  {
   "property": "C25",
   "status": "proved",
   "theorems": [
    "C25_state_times"
   ],
   "note": "For every run that does not fail; C58 gives conditions under which no run fails."
  },
  {
   "property": "C26",
   "status": "proved",
   "theorems": [
    "C26_one_to_one",
    "C26_backlog_drained"
   ],
   "note": "For a first measurement before the first state; otherwise C27."
  },
  {
   "property": "C27",
   "status": "proved",
   "theorems": [
    "C27_empty_buffer_refuted"
   ],
   "note": "Refuting witness on the barometer alone and on a full front-end run."
  },
  {
   "property": "C28",
   "status": "proved",
   "theorems": [
    "C28_increasing",
    "C28_carried_or_fresh",
    "C28_never_return",
    "C28_dense"
   ],
   "note": "For every flow that returns one result per point (flow_ok)."
  },
  {
   "property": "C29",
   "status": "proved",
   "theorems": [
    "C29_index_consistent",
    "C29_origin",
    "C29_nothing_lost",
    "C29_zero_disparity_refuted"
   ],
   "note": "Index consistency and origin of every feature; the claim that new matches pass the stereo filter is refuted (C29_zero_disparity_refuted)."
  },
  {
   "property": "C30",
   "status": "proved",
   "theorems": [
    "C30_removal_exact",
    "C30_new_clear_of_carried",
    "C30_suppressed_refuted"
   ],
   "note": "Exactness of the removal; suppression by dropped tracks is C30_suppressed_refuted."
  },
  {
   "property": "C31",
   "status": "proved",
   "theorems": [
    "C31_distance",
    "C31_epipolar",
    "C31_depth",
    "C31_idempotent",
    "C31_depth_idempotent",
    "C31_commute",
    "C31_distance_idempotent",
    "C31_distance_commutes",
    "C31_bad_index_throws",
    "C31_setters_refuted"
   ],
   "note": "float read as Q; setters read uninitialised members (C31_setters_refuted)."
  },
  {
   "property": "C32",
   "status": "proved",
   "theorems": [
    "C32_best",
    "C32_none",
    "C32_mutual",
    "C32_one_to_one",
    "C32_total",
    "C32_ratio_earlier",
    "C32_ratio_refuted",
    "C32_ratio_negative",
    "C32_unidirectional_refuted",
    "C32_dense",
    "C32_dense_matched",
    "C32_constructor",
    "C32_dense_flag_refuted"
   ],
   "note": "Costs as oracle; ratio test against later candidates refuted."
  },
  {
   "property": "C33",
   "status": "proved",
   "theorems": [
    "C33_exact",
    "C33_reads",
    "C33_initial_value_refuted"
   ],
   "note": "The uninitialised accumulator is a parameter of the model; refuted unless it is zero."
  },
  {
   "property": "C34",
   "status": "proved",
   "theorems": [
    "C34_throws",
    "C34_project_backproject",
    "C34_backproject_project",
    "C34_disparity",
    "C34_depth_filter",
    "C34_index_refuted"
   ],
   "note": "Round trips for the third component as depth; the code reads the fourth (C34_index_refuted)."
  },
  {
   "property": "C35",
   "status": "proved",
   "theorems": [
    "C35_keyframe_list",
    "C35_keyframe_list_exists",
    "C35_index",
    "C35_latest_pose"
   ],
   "note": "All histories with distinct cloud stamps; poses, points and nearest neighbour search abstract."
  },
  {
   "property": "C36",
   "status": "proved",
   "theorems": [
    "C36_duplicate_stamp_refuted",
    "C36_own_stamp_refuted",
    "C36_past_mode_ub",
    "C36_past_mode_refuted"
   ],
   "note": "Refuted by witnesses, and undefined behaviour proved for every past-mode update that names a mapped stamp."
  },
  {
   "property": "C37",
   "status": "proved",
   "theorems": [
    "C37_keyframes",
    "C37_published",
    "C37_list_unique",
    "C37_never_fails",
    "C37_walk_refuted"
   ],
   "note": "Exact result for every map; undefined behaviour iff no frame is old enough."
  },
  {
   "property": "C38",
   "status": "proved",
   "theorems": [
    "C38_no_ub",
    "C38_fifo",
    "C38_nth",
    "C38_queues",
    "C38_idle_done",
    "C38_progress",
    "C38_publishes"
   ],
   "note": "Alignment results abstract; one worker per callback, as the node starts them."
  },
  {
   "property": "C39",
   "status": "proved",
   "theorems": [
    "C39_filters_in_order",
    "C39_none_lost",
    "C39_never_fails",
    "C39_drains",
    "C39_wiring",
    "C39_filter_class",
    "C39_refusals",
    "C39_class_silent",
    "C39_no_range_refuted"
   ],
   "note": "PCL filters are oracles; publish/subscribe with bounded queues modelled. The case of no filter is as stated."
  },
  {
   "property": "C40",
   "status": "proved",
   "theorems": [
    "C40_point_linearised_derivatives",
    "C40_plane_linearised_derivatives",
    "C40_hessian_psd",
    "C40_least_squares_symmetric",
    "C40_least_squares_formula"
   ],
   "note": "Real arithmetic."
  },
  {
   "property": "C41",
   "status": "proved",
   "theorems": [
    "C41_add_fields",
    "C41_overrun_exactly",
    "C41_padding_refuted"
   ],
   "note": "Packed layout preserved; padding overruns exactly when the new step is smaller (refuted)."
  },
  {
   "property": "C42",
   "status": "proved",
   "theorems": [
    "C42_write_then_read",
    "C42_read",
    "C42_unknown_type",
    "C42_codec_integers",
    "C42_codec_reals"
   ],
   "note": "For clouds without row padding; number formats are a codec parameter with stated laws, met by two concrete codecs."
  },
  {
   "property": "C43",
   "status": "proved",
   "theorems": [
    "C43_filter",
    "C43_unknown_type"
   ],
   "note": "As C42."
  },
  {
   "property": "C44",
   "status": "proved",
   "theorems": [
    "C44_deskew",
    "C44_no_motion",
    "C44_refusals",
    "C44_pose_at_start",
    "C44_pose_at_end",
    "C44_constant_rate",
    "C44_pose_rigid",
    "C44_early_reference_refuted",
    "C44_times_kept_refuted",
    "C44_codec_widening"
   ],
   "note": "Rounding occurs only where values are stored. Rotations so small that slerp interpolates linearly are excluded by exact_rotation. A reference time before the stamp wraps (refuted)."
  },
  {
   "property": "C45",
   "status": "proved",
   "theorems": [
    "C45_names",
    "C45_unique",
    "C45_unknown_throws",
    "C45_transforms_are_products",
    "C45_static_groupoid",
    "C45_with_tf"
   ],
   "note": "Transforms obtained from tf are proper rigid motions. With dynamic frames the laws hold if tf agrees with the static frames (tf_laws)."
  },
  {
   "property": "C46",
   "status": "proved",
   "theorems": [
    "C46_entries",
    "C46_refusals",
    "C46_restored",
    "C46_keeps",
    "C46_dynamic_size",
    "C46_dynamic_refuted",
    "C46_covariance_blocks",
    "C46_twist_blocks",
    "C46_pose_message",
    "C46_pose_message_back",
    "C46_twist_message",
    "C46_odometry_message",
    "C46_imu_message",
    "C46_transform_message",
    "C46_transform_message_back",
    "C46_matrix4_message"
   ],
   "note": "Matrices of any size; messages with number entries that may be non-finite. The dynamic-size instantiation of the reordering is undefined (refuted)."
  },
  {
   "property": "C47",
   "status": "proved",
   "theorems": [
    "C47_fixed_array",
    "C47_fixed_array_back",
    "C47_vector",
    "C47_vector_size",
    "C47_multi_array",
    "C47_reuse_throws",
    "C47_reuse_refuted",
    "C47_read_outcomes",
    "C47_short_message_refuted",
    "C47_statistics",
    "C47_statistics_refusals",
    "C47_parameter"
   ],
   "note": "Any element type and shape up to 2^31 entries; a reused multi-array message throws (refuted); one too short is read past its end (refuted)."
  },
  {
   "property": "C48",
   "status": "proved",
   "theorems": [
    "C48_transform",
    "C48_two_steps",
    "C48_identity",
    "C48_inverse",
    "C48_keeps",
    "C48_second_covariance_ignored",
    "C48_odometry"
   ],
   "note": "Unit orientation and proper rotations; equality of the rotation, not of the sign of the quaternion."
  },
  {
   "property": "C49",
   "status": "proved",
   "theorems": [
    "C49_defined",
    "C49_value",
    "C49_neighbours"
   ],
   "note": "double read as R; unit norm of the slerp result outside the nearly parallel branch of Eigen."
  },
  {
   "property": "C50",
   "status": "proved",
   "theorems": [
    "C50_skew",
    "C50_inverse",
    "C50_throws_iff",
    "C50_refuted"
   ],
   "note": "Refuted part: from_skew_refuted, with the exact condition for throwing."
  },
  {
   "property": "C51",
   "status": "proved",
   "theorems": [
    "C51_radius_and_elevation",
    "C51_outcomes",
    "C51_azimuth_right_iff",
    "C51_refuted"
   ],
   "note": "Refuted, with the exact set of points where the azimuth is right, and where it is not a number."
  },
  {
   "property": "C52",
   "status": "proved",
   "theorems": [
    "C52_operations_follow",
    "C52_same_motion_same_result",
    "C52_no_motion_nothing",
    "C52_size_follows",
    "C52_centre_error",
    "C52_centre_refuted",
    "C52_projection_matrix_refuted"
   ],
   "note": "Real arithmetic; cv::rotate and cv::flip as documented. The principal point is exact from the corner of the picture, off by one pixel for integer pixel centres."
  },
  {
   "property": "C53",
   "status": "proved",
   "theorems": [
    "C53_covariance_names",
    "C53_registration_names",
    "C53_stereo_names",
    "C53_other_names",
    "C53_every_value_named",
    "C53_printed_names",
    "C53_unit_vectors",
    "C53_point_type_agrees",
    "C53_registration_starts_iff",
    "C53_robust_known",
    "C53_robust_unknown",
    "C53_robust_estimator",
    "C53_robust_refused_iff",
    "C53_robust_refuted",
    "C53_unused_name_refuted",
    "C53_lls_default_refuted"
   ],
   "note": "All name tables; unknown robust estimator names are refuted to be rejected."
  },
  {
   "property": "C54",
   "status": "proved",
   "theorems": [
    "C54_well_formed_never_fails"
   ],
   "note": ""
  },
  {
   "property": "C55",
   "status": "proved",
   "theorems": [
    "C55_published_state_is_current",
    "C55_stereo_velocity_refuted"
   ],
   "note": "With the stated proviso; C55_stereo_velocity_refuted shows it is needed."
  },
  {
   "property": "C56",
   "status": "proved",
   "theorems": [
    "C56_three_workers_refuted",
    "C56_one_worker_lidar_refuted",
    "C56_enough_workers"
   ],
   "note": "Refuting witnesses for every continuation; positive part for enough_workers."
  },
  {
   "property": "C57",
   "status": "proved",
   "theorems": [
    "C57_lost_wakeup",
    "C57_open_loop_refuted",
    "C57_closed_loop",
    "C57_cloud_finishes"
   ],
   "note": "Refuted in the open loop, with proof that no continuation recovers; positive part for the closed loop."
  },
  {
   "property": "C58",
   "status": "proved",
   "theorems": [
    "C58_selection",
    "C58_under_contract",
    "C58_contract_needed_refuted"
   ],
   "note": "Contract calm_run (FeSpec.v); C58_contract_needed_refuted."
  },
  {
   "property": "C59",
   "status": "proved",
   "theorems": [
    "C59_statistics",
    "C59_frame_number",
    "C59_first_frame_refuted",
    "C59_defined",
    "C59_failed_call_refuted"
   ],
   "note": ""
  },
  {
   "property": "C60",
   "status": "proved",
   "theorems": [
    "C60_message_accepted",
    "C60_message_read",
    "C60_meets_contract"
   ],
   "note": ""
  },
  {
   "property": "C61",
   "status": "proved",
   "theorems": [
    "C61_zero",
    "C61_symmetric",
    "C61_triangle",
    "C61_total",
    "C61_zero_mean",
    "C61_scaled",
    "C61_black",
    "C61_correlation",
    "C61_uninitialised_refuted"
   ],
   "note": "double read as R; normalised costs with zero-initialised accumulators."
  },
  {
   "property": "C62",
   "status": "proved",
   "theorems": [
    "C62_local_map",
    "C62_same_world_points",
    "C62_global_map",
    "C62_global_map_filtered",
    "C62_received_cloud"
   ],
   "note": "Nearest neighbour search by contract (knn_ok), shown satisfiable."
  },
  {
   "property": "C63",
   "status": "proved",
   "theorems": [
    "C63_never_fails",
    "C63_unnamed_cloud_refused",
    "C63_unnamed_cloud_never_published",
    "C63_out_of_order_refuted"
   ],
   "note": ""
  },
  {
   "property": "C64",
   "status": "proved",
   "theorems": [
    "C64_global_switch_refuted"
   ],
   "note": "Refuted."
  },
  {
   "property": "C65",
   "status": "proved",
   "theorems": [
    "C65_scan_pairs",
    "C65_same_frame",
    "C65_lost_map_refuted"
   ],
   "note": "The pairing by frame under a stated premise; refuted without it."
  },
  {
   "property": "C66",
   "status": "proved",
   "theorems": [
    "C66_scan_to_scan_only",
    "C66_off_blocks_worker_refuted",
    "C66_shutdown_refuted"
   ],
   "note": "Publishing proved; freedom of the workers refuted for every continuation."
  },
  {
   "property": "C67",
   "status": "proved",
   "theorems": [
    "C67_ignored_exactly",
    "C67_settings_reach_filters",
    "C67_integers",
    "C67_registration_covariance",
    "C67_matchers",
    "C67_matchers_refused_iff",
    "C67_stereo",
    "C67_window",
    "C67_window_short",
    "C67_documented_keys_refuted",
    "C67_documented_flow_refuted"
   ],
   "note": "Exact set of ignored documented keys, for the constructors modelled in CfgModel."
  },
  {
   "property": "C68",
   "status": "proved",
   "theorems": [
    "C68_keeps_the_inside",
    "C68_body_filter_refuted"
   ],
   "note": "Refuted, with the exact behaviour; inclusion in the box is an oracle."
  },
  {
   "property": "C69",
   "status": "proved",
   "theorems": [
    "C69_dropped",
    "C69_stream",
    "C69_custom",
    "C69_custom_renamed",
    "C69_custom_refused",
    "C69_ouster",
    "C69_ouster_refused",
    "C69_unscaled"
   ],
   "note": "Formatter callback; conversion between ROS and PCL messages is not modelled."
  },
  {
   "property": "C70",
   "status": "proved",
   "theorems": [
    "C70_cast",
    "C70_cast_refused",
    "C70_cast_same",
    "C70_scale",
    "C70_scale_skipped_refuted"
   ],
   "note": "Static casts out of range are not modelled as undefined."
  },
  {
   "property": "C71",
   "status": "proved",
   "theorems": [
    "C71_unit_vectors",
    "C71_normalise"
   ],
   "note": "Square root and division over the reals."
  },
  {
   "property": "C72",
   "status": "proved",
   "theorems": [
    "C72_max",
    "C72_min",
    "C72_statistics"
   ],
   "note": "Sums over the reals."
  },
  {
   "property": "C73",
   "status": "proved",
   "theorems": [
    "C73_valid_iff",
    "C73_with_tolerance",
    "C73_tolerance_refuted",
    "C73_diagonals",
    "C73_valid_has_diagonals"
   ],
   "note": "Over the reals: the factorisation of Eigen is modelled with exact square roots."
  },
  {
   "property": "C74",
   "status": "proved",
   "theorems": [
    "C74_independent",
    "C74_three_steps",
    "C74_symmetric",
    "C74_semidefinite",
    "C74_relative",
    "C74_change_of_frame",
    "C74_change_of_frame_laws",
    "C74_point_covariance"
   ],
   "note": ""
  },
  {
   "property": "C75",
   "status": "proved",
   "theorems": [
    "C75_back",
    "C75_world",
    "C75_orientation_covariance_refuted"
   ],
   "note": "Unit quaternions."
  },
  {
   "property": "C76",
   "status": "proved",
   "theorems": [
    "C76_published_transform"
   ],
   "note": "Lidar extrinsics and motions are proper rigid motions."
  },
  {
   "property": "C77",
   "status": "proved",
   "theorems": [
    "C77_accepted_iff",
    "C77_never_undefined",
    "C77_body_settings_ignored",
    "C77_array_translation_ignored",
    "C77_zero_rotation_accepted",
    "C77_rotation_without_w",
    "C77_list_translation",
    "C77_rotation_w_refuted",
    "C77_dynamic_overrides_refuted"
   ],
   "note": "Exact characterisation; two documented behaviours refuted."
  },
  {
   "property": "C78",
   "status": "proved",
   "theorems": [
    "C78_broadcast",
    "C78_dynamic_sent_static_refuted",
    "C78_dynamic_unknown_refuted"
   ],
   "note": "Set of transforms, not their order (unordered_map)."
  },
  {
   "property": "C79",
   "status": "proved",
   "theorems": [
    "C79_point_nonlinear_derivatives",
    "C79_plane_nonlinear_derivatives",
    "C79_sum_is_total_hessian",
    "C79_blocks_are_total_mixed",
    "C79_rotation_vector",
    "C79_at_fit_positive",
    "C79_no_rotation_no_covariance",
    "C79_always_covariance_refuted"
   ],
   "note": "The generated expressions are translated from the source text by a script; exact real arithmetic."
  },
  {
   "property": "C80",
   "status": "proved",
   "theorems": [
    "C80_point_definite_iff",
    "C80_plane_definite_iff",
    "C80_exists_iff_not_degenerate",
    "C80_least_squares_positive",
    "C80_censi_positive",
    "C80_censi_at_least_least_squares"
   ],
   "note": "Eigen inverse assumed to be the inverse where there is one."
  },
  {
   "property": "C81",
   "status": "proved",
   "theorems": [
    "C81_iid",
    "C81_range",
    "C81_range_covariance",
    "C81_bias_covariance",
    "C81_iid_covariance",
    "C81_bias_as_computed",
    "C81_bias_refuted"
   ],
   "note": "Bias variant: as computed, and refuted against independent ray noise."
  },
  {
   "property": "C82",
   "status": "proved",
   "theorems": [
    "C82_returns",
    "C82_with_pipeline",
    "C82_asked_for",
    "C82_valid",
    "C82_exists_iff_not_degenerate",
    "C82_positive",
    "C82_constant_positive"
   ],
   "note": "Transform assumed to be a rigid motion."
  },
  {
   "property": "C83",
   "status": "proved",
   "theorems": [
    "C83_matched",
    "C83_points_read",
    "C83_from_target",
    "C83_selection_refuted",
    "C83_mutual_refuted"
   ],
   "note": "Nearest neighbour search is a contract, met by exhaustive search."
  },
  {
   "property": "C84",
   "status": "proved",
   "theorems": [
    "C84_accepted_iff",
    "C84_refused",
    "C84_usable_iff",
    "C84_anticlockwise",
    "C84_anticlockwise_undoes",
    "C84_zero_refuted",
    "C84_odd_angle_refuted"
   ],
   "note": "Two documented behaviours refuted."
  },
  {
   "property": "C85",
   "status": "proved",
   "theorems": [
    "C85_loads_iff",
    "C85_undefined_only",
    "C85_order_ignored",
    "C85_last_entry_kept",
    "C85_order_fixed",
    "C85_order_refuted",
    "C85_operations_list_refuted",
    "C85_number_types_refuted",
    "C85_missing_settings_accepted"
   ],
   "note": "Exact characterisation; xmlrpcpp begin() assumed unchecked."
  },
  {
   "property": "C86",
   "status": "proved",
   "theorems": [
    "C86_publishes",
    "C86_stops",
    "C86_rectification_zero"
   ],
   "note": "What advertise and toCvShare refuse is not modelled."
  },
  {
   "property": "C87",
   "status": "proved",
   "theorems": [
    "C87_info_per_image",
    "C87_frame_changed"
   ],
   "note": "Real arithmetic."
  },
  {
   "property": "C88",
   "status": "proved",
   "theorems": [
    "C88_quaternion_stored",
    "C88_isometry_stored",
    "C88_vector_means",
    "C88_vector_kept",
    "C88_components_of_motion",
    "C88_components_of_vector",
    "C88_zero_rotation_refuted",
    "C88_rates_refused",
    "C88_rates_defined",
    "C88_rates_reach",
    "C88_path_exists",
    "C88_body_rates_refuted"
   ],
   "note": "Real arithmetic; sin, cos, atan2 as real functions."
  },
  {
   "property": "C89",
   "status": "proved",
   "theorems": [
    "C89_units_moved",
    "C89_units_compose",
    "C89_units_back",
    "C89_covariances_moved",
    "C89_covariances_compose",
    "C89_covariances_back",
    "C89_normals_moved",
    "C89_normals_compose",
    "C89_normals_back",
    "C89_geometry_kept",
    "C89_output_ignored",
    "C89_not_copied_refuted"
   ],
   "note": "Real arithmetic for finite floats."
  },
  {
   "property": "C90",
   "status": "proved",
   "theorems": [
    "C90_distances_stored",
    "C90_distances_published",
    "C90_no_transform",
    "C90_empty_source",
    "C90_too_many_points_refuted",
    "C90_starts_iff",
    "C90_normals_counted",
    "C90_no_bad_normals_iff",
    "C90_nan_normals_refuted",
    "C90_seconds_kept",
    "C90_seconds_rounded_down",
    "C90_integer_times_refuted"
   ],
   "note": "The kd-tree is a search assumed to find the nearest point of a non-empty target; finite positions."
  },
  {
   "property": "C91",
   "status": "proved",
   "theorems": [
    "C91_type_subscribed",
    "C91_motions_combined",
    "C91_no_uncertainty",
    "C91_uncertainty_refuted",
    "C91_misspelt_refuted"
   ],
   "note": "Real arithmetic; finite entries."
  },
  {
   "property": "C92",
   "status": "proved",
   "theorems": [
    "C92_integrated",
    "C92_times_add_up",
    "C92_initial_orientation",
    "C92_back_refused",
    "C92_restart_keeps",
    "C92_restart_refuted",
    "C92_backwards_refuted"
   ],
   "note": "The integrator is arbitrary; whether it throws for a negative step is a parameter, since the source of GTSAM is not at hand and two versions are supported; real arithmetic; differences that fit a duration."
  },
  {
   "property": "C93",
   "status": "proved",
   "theorems": [
    "C93_tf_of_odometry",
    "C93_imu_turned",
    "C93_turned_covariance_iff",
    "C93_turned_covariance_refuted",
    "C93_frames_broadcast",
    "C93_second_frame",
    "C93_second_frame_refuted",
    "C93_settings_refused",
    "C93_settings_by_rows"
   ],
   "note": "Real arithmetic."
  },
  {
   "property": "C94",
   "status": "proved",
   "theorems": [
    "C94_biases",
    "C94_arrays",
    "C94_appended_refuted",
    "C94_poses"
   ],
   "note": "Real arithmetic; frame names are numbers."
  },
  {
   "property": "C95",
   "status": "proved",
   "theorems": [
    "C95_last_messages",
    "C95_values",
    "C95_outlier",
    "C95_outlier_unknown",
    "C95_relative_pose",
    "C95_raises",
    "C95_labels_swapped",
    "C95_labels_refuted",
    "C95_one_pose_refuted",
    "C95_opposite_refuted",
    "C95_nan_orientation_refuted",
    "C95_torn_refuted"
   ],
   "note": "Real arithmetic; infinite values left out; callbacks interleave only between the two assignments of the pose callback."
  },
  {
   "property": "C96",
   "status": "proved",
   "theorems": [
    "C96_only_stamps",
    "C96_untouched",
    "C96_true_kept",
    "C96_missing_after",
    "C96_missing_first",
    "C96_none_missing",
    "C96_counted",
    "C96_increasing",
    "C96_again",
    "C96_goes_back_refuted",
    "C96_other_topic_refuted",
    "C96_leading_refuted"
   ],
   "note": "Stamps without the 32 bit limit; genpy times as integers."
  },
  {
   "property": "C97",
   "status": "proved",
   "theorems": [
    "C97_live_state",
    "C97_live_message",
    "C97_nothing_before",
    "C97_order_irrelevant",
    "C97_noise"
   ],
   "note": "The integrator is arbitrary; real arithmetic; the two messages of the back end arrive together."
  },
  {
   "property": "C98",
   "status": "proved",
   "theorems": [
    "C98_rate_iff",
    "C98_rate_refuted",
    "C98_velocity_iff",
    "C98_velocity_refuted"
   ],
   "note": "Real arithmetic."
  },
  {
   "property": "C99",
   "status": "proved",
   "theorems": [
    "C99_base_link_sent",
    "C99_pose_iff",
    "C99_pose_refuted",
    "C99_never_throws"
   ],
   "note": "Static frames declared in the configuration; real arithmetic."
  },
  {
   "property": "C100",
   "status": "proved",
   "theorems": [
    "C100_orientation",
    "C100_no_orientation",
    "C100_first_state",
    "C100_rate_refuted"
   ],
   "note": "Unit or zero orientations; real arithmetic."
  },
  {
   "property": "C101",
   "status": "proved",
   "theorems": [
    "C101_guess",
    "C101_skew_iff",
    "C101_skew_straight",
    "C101_skew_switches",
    "C101_skew_refuted",
    "C101_still_point"
   ],
   "note": "Real arithmetic; rotations outside the threshold band of slerp."
  },
  {
   "property": "C102",
   "status": "proved",
   "theorems": [
    "C102_fed",
    "C102_one_publisher",
    "C102_inputs_read",
    "C102_outputs_published",
    "C102_outputs_only",
    "C102_published_read",
    "C102_same_points",
    "C102_services",
    "C102_metrics_fed",
    "C102_recorded_available",
    "C102_recorded_refuted"
   ],
   "note": "Topics of image_transport plugins, queue sizes and latching are left out; no remapping."
  },
  {
   "property": "C103",
   "status": "proved",
   "theorems": [
    "C103_accepted_iff",
    "C103_split_same",
    "C103_split_starts",
    "C103_stereo_alone",
    "C103_stereo_alone_starts",
    "C103_unknown_estimator_refuted"
   ],
   "note": "The parameters and tf answer the same to every module; the checks inside the constructors of the gtsam estimators are an oracle."
  },
  {
   "property": "C104",
   "status": "proved",
   "theorems": [
    "C104_no_exception",
    "C104_no_failed_callback",
    "C104_contracts_kept",
    "C104_odometry_states"
   ],
   "note": "Topics are FIFO and lossless with any delay; odometry may be delivered before its bias message; mapping is reduced to its traffic; stereo features are an input of the back end; the sensor contract is LpSpec.fine."
  },
  {
   "property": "C105",
   "status": "proved",
   "theorems": [
    "C105_odometry_behind",
    "C105_never_overtakes",
    "C105_rest_done",
    "C105_overtaken_stops",
    "C105_without_registration_refuted"
   ],
   "note": "Rest is a state in which nothing but polling is possible; progress under fairness is C107. The refutation is a finding."
  },
  {
   "property": "C106",
   "status": "proved",
   "theorems": [
    "C106_same_frame"
   ],
   "note": "Loss of a map is C65_lost_map_refuted; here topics lose nothing."
  },
  {
   "property": "C107",
   "status": "proved",
   "theorems": [
    "C107_odometry_returns",
    "C107_transform_published",
    "C107_cloud_registered",
    "C107_awaited_odometry_arrives",
    "C107_callback_returns"
   ],
   "note": "Fairness is strong fairness of each agent (LpFairSpec.lfair), assumed of the scheduler, the mutexes and the middleware; worker threads at least the number of callbacks (enough_workers). time only names the stamps of the states of the execution. LpFairEx gives a concrete infinite fair execution."
  },
  {
   "property": "C108",
   "status": "proved",
   "theorems": [
    "C108_time_near",
    "C108_range_near",
    "C108_order_kept",
    "C108_apart_told_apart",
    "C108_all_told_apart_refuted",
    "C108_sweep_within_4ns",
    "C108_sweep_within",
    "C108_sweep_empty",
    "C108_sweep_exact_refuted",
    "C108_fraction_bound",
    "C108_fraction_first",
    "C108_fraction_order",
    "C108_fraction_one_refuted",
    "C108_filter_sides"
   ],
   "note": "IEEE rounding to nearest even by Flocq, overflow left out. ros::Duration toSec and fromSec as contracts. Distinct times staying distinct, an exact sweep duration and fractions of at most one are refuted by witnesses."
  },
  {
   "property": "C109",
   "status": "proved",
   "theorems": [
    "C109_fraction_unit",
    "C109_fraction_first",
    "C109_fraction_last",
    "C109_fraction_order",
    "C109_fraction_near",
    "C109_nearer_message",
    "C109_nearer_as_integers",
    "C109_nearer_message_refuted",
    "C109_steps_add_up"
   ],
   "note": "IEEE rounding by Flocq. Up to one second this justifies the integer comparison used in FoModel.nearer (C109_nearer_as_integers); beyond one second the middle is refuted."
  },
  {
   "property": "C110",
   "status": "proved",
   "theorems": [
    "C110_first",
    "C110_last",
    "C110_near",
    "C110_between_up_to_rounding",
    "C110_between_refuted",
    "C110_order",
    "C110_positive"
   ],
   "note": "IEEE rounding by Flocq; that the result lies between the two pressures is refuted by a witness."
  },
  {
   "property": "C111",
   "status": "proved",
   "theorems": [
    "C111_never_undefined",
    "C111_always_reports",
    "C111_report",
    "C111_zero_exactly_when_equal",
    "C111_zero_relative_motion",
    "C111_recorded_has_no_error",
    "C111_moved_together",
    "C111_relative_estimate_moved",
    "C111_relative_reference_moved",
    "C111_scaled_quaternion",
    "C111_matrix_of_pose",
    "C111_matrix_of_moved_pose"
   ],
   "note": "Doubles as reals. quatinterp keeps unit length and commutes with a rotation from the left, as contracts met by EvSelf.mix_turn; the report is stated with the generic EvSpec.reports."
  },
  {
   "property": "C112",
   "status": "proved",
   "theorems": [
    "C112_recomputed",
    "C112_recomputed_relative",
    "C112_first_pose",
    "C112_first_pose_always",
    "C112_first_pose_error",
    "C112_length_is",
    "C112_length_moved",
    "C112_length_covers",
    "C112_interpolated",
    "C112_interpolated_always",
    "C112_interpolated_number_refuted",
    "C112_single_pose_refuted"
   ],
   "note": "rotm2quat returns a unit quaternion of the rotation, quatinterp meets its ends: contracts met by quat_of and mix_turn. Two refutations (repeated last stamp, single pose)."
  },
  {
   "property": "C113",
   "status": "proved",
   "theorems": [
    "C113_never_undefined",
    "C113_always_reports",
    "C113_report",
    "C113_relative",
    "C113_relative_sign_refuted",
    "C113_offset"
   ],
   "note": "Three columns. The sign of the relative error is refuted as the change of the absolute one."
  },
  {
   "property": "C114",
   "status": "proved",
   "theorems": [
    "C114_statistics",
    "C114_statistics_total",
    "C114_empty_frame",
    "C114_empty_frame_refuted",
    "C114_retention",
    "C114_retention_length",
    "C114_retention_bounds",
    "C114_mean_bounds",
    "C114_mean_none"
   ],
   "note": "Counts below 2^31 (int32 of containers.Map saturates). An empty frame is refuted: max([]) cannot be assigned to one element."
  },
  {
   "property": "C115",
   "status": "proved",
   "theorems": [
    "C115_result",
    "C115_relative_kept",
    "C115_first_step",
    "C115_later_slope_refuted",
    "C115_self",
    "C115_self_refuted",
    "C115_printed_loss"
   ],
   "note": "MATLAB max and min ignore NaN, so that a clamped NaN is minus the bound; axang2rotm of a zero rotation vector divides 0 by 0. Convergence is not claimed (and refuted for fitting trajectories)."
  },
  {
   "property": "C116",
   "status": "proved",
   "theorems": [
    "C116_guarded_members",
    "C116_only_races",
    "C116_race_free",
    "C116_race_refuted",
    "C116_no_odometry_while_deskewing",
    "C116_odometry_while_deskewing_refuted"
   ],
   "note": "Callbacks transcribed as skeletons of member accesses with line numbers; branches and loops free. A race is two threads about to make conflicting accesses. That the mutexes suffice is refuted (C116_race_refuted), race freedom is proved under the condition that no odometry is taken during deskewing, the condition is proved for the pipeline with registration and refuted without. The two models meet in the reading of the stretch deskewing as phase PSkew."
  },
  {
   "property": "C117",
   "status": "proved",
   "theorems": [
    "C117_proper_use",
    "C117_unlock_by_owner",
    "C117_no_mutex_left",
    "C117_no_mutex_while_sleeping",
    "C117_no_deadlock",
    "C117_shutdown_leaves_locked"
   ],
   "note": "Same model. Returning without a locked mutex after a shutdown is refuted by an execution (cf. C18)."
  },
  {
   "property": "C118",
   "status": "proved",
   "theorems": [
    "C118_few_threads_no_new_states",
    "C118_enough_threads",
    "C118_imu_or_baro_waits",
    "C118_thread_free_at_rest",
    "C118_rest_is_rest",
    "C118_delivers",
    "C118_bound_exact_refuted",
    "C118_starved_forever",
    "C118_map_thread_lost",
    "C118_rest_case",
    "C118_starved_case",
    "C118_lost_case"
   ],
   "note": "The pool restricts the pipeline of C105: a callback begins only if fewer than c_pool threads are taken. pool_rest is rest under the pool (nothing moves, possibly for want of a thread). That four threads suffice in every configuration is refuted (C118_bound_exact_refuted); the bound 4 + stereo is proved sufficient and exact. Progress towards rest under fairness is C107 without the pool; with nine threads the pool changes nothing (C118_enough_threads)."
  },
  {
   "property": "C119",
   "status": "proved",
   "theorems": [
    "C119_thread_free_again",
    "C119_pipeline_fair",
    "C119_odometry_returns",
    "C119_transform_published",
    "C119_cloud_registered",
    "C119_callback_returns",
    "C119_case"
   ],
   "note": "Strengthens C107 (fairness without the pool) and C118 (rest on the pool): fairness is asked only for what can move with the threads there are, and the fairness C107 needs is derived (C119_pipeline_fair). Indices below the range of int, as in C107. The non-trivial case runs on four threads."
  },
  {
   "property": "C120",
   "status": "proved",
   "theorems": [
    "C120_exists",
    "C120_never_undefined",
    "C120_both_refused",
    "C120_report",
    "C120_angle_unique",
    "C120_angle_zero",
    "C120_rmse_between",
    "C120_rmse_zero",
    "C120_rmse_unique",
    "C120_alignment_keeps",
    "C120_frame_of_estimate",
    "C120_moved_together",
    "C120_recorded",
    "C120_other_time_refuted",
    "C120_relative_number_refuted",
    "C120_stamps",
    "C120_stamp_order"
   ],
   "note": "Doubles read as R; quatinterp, rotm2quat, rotm2axang and quat2axang are contracts (met by the functions of EvDataEx). What the fitting alignment itself does is C115; here it is one rigid motion, and its report may fail. Findings: an estimate from another time leaves no report on any estimate (C120_other_time_refuted); one covered pose gives a report whose relative RMSE is no number (C120_relative_number_refuted)."
  },
  {
   "property": "C121",
   "status": "proved",
   "theorems": [
    "C121_exists",
    "C121_report",
    "C121_other_time"
   ],
   "note": "Doubles read as R. The sign of the relative error is that of C113; the norms do not show it."
  },
  {
   "property": "C122",
   "status": "proved",
   "theorems": [
    "C122_load",
    "C122_count_exact_iff",
    "C122_one_message_per_answer",
    "C122_late_subscriber",
    "C122_save",
    "C122_save_waits",
    "C122_round_trip",
    "C122_latch_refuted",
    "C122_no_latch_refuted",
    "C122_count_refuted",
    "C122_open3d_refuted"
   ],
   "note": "Readers and writers of PCL are oracles; that what was written is read back is a contract, used only where the theorems say so. Findings: a request for a latched message is answered but the message is not latched when an earlier request for the topic did not ask for it, even one that failed (C122_latch_refuted), and conversely (C122_no_latch_refuted); the number in the answer wraps (C122_count_refuted); the Open3D variant answers although nothing was written (C122_open3d_refuted)."
  },
  {
   "property": "C123",
   "status": "proved",
   "theorems": [
    "C123_point_mixed",
    "C123_plane_mixed",
    "C123_plane_hessian",
    "C123_rotations",
    "C123_homogeneous",
    "C123_costs",
    "C123_gradient_point",
    "C123_gradient_plane",
    "C123_every_entry_written",
    "C123_written_once",
    "C123_no_angle_refuted"
   ],
   "note": "Symbols read as real numbers; what the symbolic toolbox derives by itself is not modelled (the C++ taken from it is, C40, C79). Finding: the script has no rotation at r = 0 (C123_no_angle_refuted), the source of the models without a number there."
  },
  {
   "property": "C124",
   "status": "proved",
   "theorems": [
    "C124_parameters_laid_over",
    "C124_frames_laid_over",
    "C124_starts",
    "C124_starts_as_shipped",
    "C124_threads_suffice",
    "C124_launch_again",
    "C124_lidar_and_imu",
    "C124_snowboard_left_camera",
    "C124_simulator_left_camera",
    "C124_velocity_refuted",
    "C124_frames_refuted",
    "C124_ue4_left_camera_refuted",
    "C124_flow_refuted"
   ],
   "note": "YAML files read into MsnData.v by a script; how roslaunch and the master set a leaf is a contract. Refuted parts: the simulator missions without a velocity keep that of an earlier mission (C124_velocity_refuted); frames are merged with those of another platform, which turns the imu of the simulator by half a turn after snowboard (C124_frames_refuted); the left camera of ue4 is the middle of the pair (C124_ue4_left_camera_refuted); a window left by hand below the key the tracker reads stops every platform with stereo (C124_flow_refuted)."
  },
  {
   "property": "C125",
   "status": "proved",
   "theorems": [
    "C125_motions_there",
    "C125_motions",
    "C125_motions_moved",
    "C125_ellipsoid",
    "C125_errors",
    "C125_errors_there",
    "C125_errors_estimate_moved",
    "C125_errors_self",
    "C125_point_size",
    "C125_points_right_iff",
    "C125_no_variance",
    "C125_plot",
    "C125_plot_there",
    "C125_plot_mismatch",
    "C125_jacobians",
    "C125_jacobians_there",
    "C125_covariance_entries",
    "C125_sigmas",
    "C125_points_refuted",
    "C125_fraction_refuted",
    "C125_few_refuted",
    "C125_single_refuted"
   ],
   "note": "eig by contract (orthogonal vectors, product gives the matrix back). Refuted parts: the normalisation multiplies by the vectors instead of their transpose (C125_points_refuted, exact condition in C125_points_right_iff); the printed fraction is that of the last point (C125_fraction_refuted); fewer than three motions stop the script (C125_few_refuted); a single pose gives an error instead of no motions (C125_single_refuted)."
  },
  {
   "property": "C126",
   "status": "proved",
   "theorems": [
    "C126_modules",
    "C126_fed",
    "C126_reads",
    "C126_publishes",
    "C126_outputs",
    "C126_one_publisher",
    "C126_two_processes",
    "C126_two_processes_start",
    "C126_tracker_alone",
    "C126_snowboard",
    "C126_snowboard_any_camera",
    "C126_snowboard_starts",
    "C126_snowboard_other_camera_refuted",
    "C126_undistort_eyes",
    "C126_ue4",
    "C126_ue4_eyes",
    "C126_simulator",
    "C126_snowboard_sides",
    "C126_ue4_sides",
    "C126_simulator_sides",
    "C126_long_picture",
    "C126_small_picture",
    "C126_own_names_refuted"
   ],
   "note": "ROS name resolution and remapping as documented; the undistortion node of image_undistort by contract (first to first, second to second). Refuted parts: three of the four snowboard cameras have no calibration file and cannot be launched (C126_snowboard_other_camera_refuted); a sensor topic among the own names of the system makes it listen to itself (C126_own_names_refuted)."
  },
  {
   "property": "C127",
   "status": "proved",
   "theorems": [
    "C127_poses",
    "C127_velocities",
    "C127_trajectories",
    "C127_saves",
    "C127_outcome",
    "C127_reference",
    "C127_colours",
    "C127_no_titles",
    "C127_titles_refuted",
    "C127_unit_refuted",
    "C127_angular_labels_refuted",
    "C127_many_estimates_refuted",
    "C127_cloud_fields",
    "C127_cloud_fields_refuted",
    "C127_cloud_ticks"
   ],
   "note": "MATLAB figure, subplot, plot, hold and legend as documented: subplot removes the axes it overlaps. Refuted parts: the titles of the windows are never shown (C127_titles_refuted), a unit other than deg is written on the labels but not converted to (C127_unit_refuted), two cells of absolute errors of angular velocities carry another label (C127_angular_labels_refuted), more than 17 estimates fail with the default colours (C127_many_estimates_refuted), point clouds of three fields have no figure (C127_cloud_fields_refuted)."
  },
  {
   "property": "C128",
   "status": "proved",
   "theorems": [
    "C128_exactly",
    "C128_drawn",
    "C128_legends_refuted",
    "C128_closed_refuted"
   ],
   "note": "Drawing commands as in C127. Refuted parts: only the window of squares gets a legend (C128_legends_refuted), closing leaves two of the three windows open (C128_closed_refuted)."
  },
  {
   "property": "C129",
   "status": "proved",
   "theorems": [
    "C129_exactly",
    "C129_drawn",
    "C129_frame_number_refuted",
    "C129_lengths_across_refuted",
    "C129_no_matches_refuted"
   ],
   "note": "Drawing commands as in C127; a number that stands for NaN is a parameter. The columns of track lengths are those of compute_frame_track_statistics, whose meaning is stated among the properties of the evaluation scripts. Refuted parts: with frame numbers across, the cell called frame number shows times (C129_frame_number_refuted) and the track lengths are drawn over times under the label frame (C129_lengths_across_refuted); one message without matches and nothing is drawn (C129_no_matches_refuted)."
  },
  {
   "property": "C130",
   "status": "proved",
   "theorems": [
    "C130_graph",
    "C130_keys_once",
    "C130_group_time",
    "C130_same_published",
    "C130_zero_first",
    "C130_zero_first_refuted"
   ],
   "note": "The integrator is arbitrary and reset to its initial value; the optimiser is a record of what it was given, throws for a known key or a factor on an unknown one, and is assumed to solve the system. Console output left out. The file belongs to no build target. Refuted part: C130_zero_first_refuted."
  },
  {
   "property": "C131",
   "status": "proved",
   "theorems": [
    "C131_exactly",
    "C131_drawn",
    "C131_reordered_refuted",
    "C131_no_legend_refuted"
   ],
   "note": "Drawing commands as in C127; numbers are real. Refuted parts: C131_reordered_refuted, C131_no_legend_refuted."
  },
  {
   "property": "C132",
   "status": "proved",
   "theorems": [
    "C132_raw",
    "C132_raw_exactly",
    "C132_odometry",
    "C132_jacobians",
    "C132_statistics",
    "C132_few_topics",
    "C132_registration",
    "C132_registration_none",
    "C132_placeholder_refuted",
    "C132_main_registration",
    "C132_main_statistics",
    "C132_names_refuted",
    "C132_mixed_refuted",
    "C132_one_topic_refuted"
   ],
   "note": "rosbag, select and readMessages of MATLAB as documented; the figure of the covariances is any function of the messages. Refuted parts: C132_placeholder_refuted (with C132_main_registration for the topics of main.m), C132_names_refuted, C132_mixed_refuted, C132_one_topic_refuted."
  },
  {
   "property": "C133",
   "status": "proved",
   "theorems": [
    "C133_exactly",
    "C133_window",
    "C133_registration",
    "C133_same_file_refuted"
   ],
   "note": "Drawing commands as in C127, reading as in C132; of a complex number the real part is drawn. Refuted part: C133_same_file_refuted."
  },
  {
   "property": "C134",
   "status": "proved",
   "theorems": [
    "C134_exactly",
    "C134_published",
    "C134_normals",
    "C134_serves",
    "C134_stops",
    "C134_empty_cloud_refuted",
    "C134_nan_mean_refuted",
    "C134_nan_only_refuted",
    "C134_nan_normals_refuted",
    "C134_stamp_refuted"
   ],
   "note": "Values are real numbers or NaN, without infinities and rounding; an exception that leaves a callback ends the node. Refuted parts: C134_empty_cloud_refuted, C134_nan_mean_refuted, C134_nan_only_refuted, C134_nan_normals_refuted, C134_stamp_refuted."
  }
 ]
}