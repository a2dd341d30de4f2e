(* The parameter files of the shipped platforms, generated from the YAML files of /repo: for each platform the file of the
   robot (leaves of the tree under body_frames, in the order of the file, a key written twice kept twice), the files of
   the missions, and filter.yaml, format.yaml, normal_estimation.yaml, tuning.yaml, debug.yaml in the order in which
   serpent/launch/load_parameters.launch 12-24 loads them. *)
From Coq Require Import ZArith QArith List Bool String Reals.
From Verif Require Import Base CfgModel BfModel.
Import ListNotations.
Open Scope string_scope.
Open Scope list_scope.

(* snowboard/config/serpent/snowboard.yaml *)
Definition snowboard_robot : list (list string * xv) := [
  (["base_link"; "frame_id"], XString "base_link");
  (["base_link"; "frames"; "imu"; "translation"; "x"], XDouble (0));
  (["base_link"; "frames"; "imu"; "translation"; "y"], XDouble (0));
  (["base_link"; "frames"; "imu"; "translation"; "z"], XDouble (0));
  (["base_link"; "frames"; "imu"; "rotation"; "w"], XDouble (0));
  (["base_link"; "frames"; "imu"; "rotation"; "x"], XDouble (0));
  (["base_link"; "frames"; "imu"; "rotation"; "y"], XDouble (1));
  (["base_link"; "frames"; "imu"; "rotation"; "z"], XDouble (0));
  (["base_link"; "frames"; "lidar"; "translation"; "x"], XDouble (3 / 5));
  (["base_link"; "frames"; "lidar"; "translation"; "y"], XDouble (1 / 25));
  (["base_link"; "frames"; "lidar"; "translation"; "z"], XDouble (0));
  (["base_link"; "frames"; "lidar"; "rotation"; "w"], XDouble (2495337 / 2500000));
  (["base_link"; "frames"; "lidar"; "rotation"; "x"], XDouble (0));
  (["base_link"; "frames"; "lidar"; "rotation"; "y"], XDouble ((-122097) / 2000000));
  (["base_link"; "frames"; "lidar"; "rotation"; "z"], XDouble (0));
  (["base_link"; "frames"; "left_stereo"; "translation"; "x"], XDouble (169 / 400));
  (["base_link"; "frames"; "left_stereo"; "translation"; "y"], XDouble (9 / 100));
  (["base_link"; "frames"; "left_stereo"; "translation"; "z"], XDouble (1 / 25));
  (["base_link"; "frames"; "left_stereo"; "rotation"; "w"], XDouble (1767767 / 2500000));
  (["base_link"; "frames"; "left_stereo"; "rotation"; "x"], XDouble ((-1767767) / 2500000));
  (["base_link"; "frames"; "left_stereo"; "rotation"; "y"], XDouble (0));
  (["base_link"; "frames"; "left_stereo"; "rotation"; "z"], XDouble (0));
  (["base_link"; "frames"; "left_stereo"; "frames"; "left_stereo_left_cam"; "translation"; "x"], XDouble ((-11) / 400));
  (["base_link"; "frames"; "left_stereo"; "frames"; "left_stereo_right_cam"; "translation"; "x"], XDouble (11 / 400));
  (["base_link"; "frames"; "right_stereo"; "translation"; "x"], XDouble (169 / 400));
  (["base_link"; "frames"; "right_stereo"; "translation"; "y"], XDouble ((-1) / 100));
  (["base_link"; "frames"; "right_stereo"; "translation"; "z"], XDouble (1 / 25));
  (["base_link"; "frames"; "right_stereo"; "rotation"; "w"], XDouble (0));
  (["base_link"; "frames"; "right_stereo"; "rotation"; "x"], XDouble (0));
  (["base_link"; "frames"; "right_stereo"; "rotation"; "y"], XDouble ((-1767767) / 2500000));
  (["base_link"; "frames"; "right_stereo"; "rotation"; "z"], XDouble (1767767 / 2500000));
  (["base_link"; "frames"; "right_stereo"; "frames"; "right_stereo_left_cam"; "translation"; "x"], XDouble ((-11) / 400));
  (["base_link"; "frames"; "right_stereo"; "frames"; "right_stereo_right_cam"; "translation"; "x"], XDouble (11 / 400));
  (["base_link"; "frames"; "front_stereo"; "translation"; "x"], XDouble (189 / 400));
  (["base_link"; "frames"; "front_stereo"; "translation"; "y"], XDouble (1 / 25));
  (["base_link"; "frames"; "front_stereo"; "translation"; "z"], XDouble (1 / 25));
  (["base_link"; "frames"; "front_stereo"; "rotation"; "w"], XDouble (1 / 2));
  (["base_link"; "frames"; "front_stereo"; "rotation"; "x"], XDouble ((-1) / 2));
  (["base_link"; "frames"; "front_stereo"; "rotation"; "y"], XDouble (1 / 2));
  (["base_link"; "frames"; "front_stereo"; "rotation"; "z"], XDouble ((-1) / 2));
  (["base_link"; "frames"; "front_stereo"; "frames"; "front_stereo_left_cam"; "translation"; "x"], XDouble ((-11) / 400));
  (["base_link"; "frames"; "front_stereo"; "frames"; "front_stereo_right_cam"; "translation"; "x"], XDouble (11 / 400));
  (["base_link"; "frames"; "up_stereo"; "translation"; "x"], XDouble (169 / 400));
  (["base_link"; "frames"; "up_stereo"; "translation"; "y"], XDouble (1 / 25));
  (["base_link"; "frames"; "up_stereo"; "translation"; "z"], XDouble (9 / 100));
  (["base_link"; "frames"; "up_stereo"; "rotation"; "w"], XDouble (1));
  (["base_link"; "frames"; "up_stereo"; "rotation"; "x"], XDouble (0));
  (["base_link"; "frames"; "up_stereo"; "rotation"; "y"], XDouble (0));
  (["base_link"; "frames"; "up_stereo"; "rotation"; "z"], XDouble (0));
  (["base_link"; "frames"; "up_stereo"; "frames"; "up_stereo_left_cam"; "translation"; "x"], XDouble ((-11) / 400));
  (["base_link"; "frames"; "up_stereo"; "frames"; "up_stereo_right_cam"; "translation"; "x"], XDouble (11 / 400))]%R.
(* snowboard/config/serpent/mission/ice_rink.yaml *)
Definition snowboard_ice_rink : list (string * pval) := [("gravity", VDouble (489#50)); ("pose/position/x", VDouble (0#1)); ("pose/position/y", VDouble (0#1)); ("pose/position/z", VDouble (0#1))].
(* snowboard/config/serpent/mission/mammoth_outdoor.yaml *)
Definition snowboard_mammoth_outdoor : list (string * pval) := [("gravity", VDouble (489#50)); ("pose/position/x", VDouble (0#1)); ("pose/position/y", VDouble (0#1)); ("pose/position/z", VDouble (0#1))].
(* snowboard/config/serpent/mission/tunnel.yaml *)
Definition snowboard_tunnel : list (string * pval) := [("gravity", VDouble (489#50)); ("pose/position/x", VDouble (0#1)); ("pose/position/y", VDouble (0#1)); ("pose/position/z", VDouble (0#1))].
(* snowboard/config/serpent/{filter,format,normal_estimation,tuning,debug}.yaml *)
Definition snowboard_files : list (string * pval) := [
  ("first_pointcloud_removal/enabled", VBool true);
  ("time_field_filter/enabled", VBool true);
  ("time_field_filter/max", VDouble (1#10));
  ("body_filter/enabled", VBool false);
  ("body_filter/min/x", VDouble (0#1));
  ("body_filter/min/y", VDouble (0#1));
  ("body_filter/min/z", VDouble (0#1));
  ("body_filter/max/x", VDouble (0#1));
  ("body_filter/max/y", VDouble (0#1));
  ("body_filter/max/z", VDouble (0#1));
  ("body_filter/translation/x", VDouble (0#1));
  ("body_filter/translation/y", VDouble (0#1));
  ("body_filter/translation/z", VDouble (0#1));
  ("body_filter/rotation/rx", VDouble (0#1));
  ("body_filter/rotation/ry", VDouble (0#1));
  ("body_filter/rotation/rz", VDouble (0#1));
  ("random_sample_filter/enabled", VBool false);
  ("random_sample_filter/sample_size", VInt 5000);
  ("random_sample_filter/random_seed", VInt 0);
  ("range_filter/enabled", VBool true);
  ("range_filter/min", VDouble (1#2));
  ("range_filter/max", VInt 1000);
  ("statistical_outlier_removal/enabled", VBool false);
  ("statistical_outlier_removal/mean_k", VInt 1);
  ("statistical_outlier_removal/stddev_mul_thresh", VDouble (0#1));
  ("voxel_grid_filter/enabled", VBool true);
  ("voxel_grid_filter/leaf_size", VDouble (1#4));
  ("voxel_grid_filter/minimum_points_number_per_voxel", VInt 1);
  ("stereo_mask/enabled", VBool true);
  ("stereo_mask/top_left_x", VInt 0);
  ("stereo_mask/top_left_y", VInt 360);
  ("stereo_mask/height", VInt 316);
  ("stereo_mask/width", VInt 1577);
  ("pointcloud_type", VStr "OUSTER");
  ("normal_estimation/threads", VInt 1);
  ("normal_estimation/viewpoint/x", VDouble (0#1));
  ("normal_estimation/viewpoint/y", VDouble (0#1));
  ("normal_estimation/viewpoint/z", VDouble (0#1));
  ("normal_estimation/method", VStr "knn");
  ("normal_estimation/k", VInt 30);
  ("normal_estimation/radius", VDouble (1#1));
  ("prior_noise/position", VDouble (1#1000));
  ("prior_noise/rotation", VDouble (1#1000));
  ("prior_noise/linear_velocity", VDouble (1#1000));
  ("prior_noise/accelerometer_bias", VDouble (1#200));
  ("prior_noise/gyroscope_bias", VDouble (1#200));
  ("prior_noise/barometer_bias", VDouble (1#1000000));
  ("imu/reference_frame", VStr "NED");
  ("imu/noise/integration", VDouble (1#10000));
  ("imu/noise/integration_bias", VDouble (3#1000));
  ("imu/noise/accelerometer_bias", VDouble (1#2000));
  ("imu/noise/gyroscope_bias", VDouble (3#125000));
  ("imu/noise/overwrite", VBool true);
  ("imu/noise/accelerometer", VDouble (39#1000));
  ("imu/noise/gyroscope", VDouble (3#12500));
  ("barometer/noise/barometer_bias", VDouble (1#1000000));
  ("barometer/noise/overwrite", VBool true);
  ("barometer/noise/barometer", VDouble (1#100));
  ("mdc/translation", VBool true);
  ("mdc/rotation", VBool true);
  ("isam2/optimization", VStr "GaussNewton");
  ("isam2/gauss_newton_params/wildfire_threshold", VDouble (1#1000));
  ("isam2/dogleg_params/initial_delta", VDouble (1#1));
  ("isam2/dogleg_params/wildfire_threshold", VDouble (1#100000));
  ("isam2/dogleg_params/trust_region_adaptation_mode", VStr "SEARCH_EACH_ITERATION");
  ("isam2/dogleg_params/verbose", VBool false);
  ("isam2/relinearize_threshold", VDouble (1#10));
  ("isam2/relinearize_skip", VInt 10);
  ("isam2/enable_relinearization", VBool true);
  ("isam2/evaluate_nonlinear_error", VBool false);
  ("isam2/factorization", VStr "CHOLESKY");
  ("isam2/cache_linearized_factors", VBool true);
  ("optimisation/factors/barometer", VBool false);
  ("optimisation/factors/imu", VBool true);
  ("optimisation/factors/registration", VBool true);
  ("optimisation/factors/stereo", VBool false);
  ("optimisation/marginalisation/enabled", VBool false);
  ("optimisation/marginalisation/window_size", VInt 100);
  ("registration_covariance/method", VStr "CENSI");
  ("registration_covariance/model", VStr "POINT_TO_PLANE_LINEARISED");
  ("registration_covariance/constant/rotation", VDouble (174533#10000000));
  ("registration_covariance/constant/translation", VDouble (1#100));
  ("registration_covariance/point_covariance/method", VStr "CONSTANT");
  ("registration_covariance/point_covariance/constant", VDouble (1#20));
  ("registration_covariance/point_covariance/range_noise", VDouble (1#20));
  ("registration_covariance/point_covariance/range_bias_noise", VDouble (1#50));
  ("s2s/method", VStr "fast_gicp");
  ("s2s/base/maximum_iterations", VInt 30);
  ("s2s/base/ransac_iterations", VInt 0);
  ("s2s/base/ransac_outlier_rejection_threshold", VDouble (1#20));
  ("s2s/base/max_correspondence_distance", VDouble (1#2));
  ("s2s/base/transformation_epsilon", VDouble (1#1000));
  ("s2s/base/transformation_rotation_epsilon", VDouble (1#10000));
  ("s2s/base/euclidean_fitness_epsilon", VDouble (1#10000));
  ("s2s/icp/use_reciprocal_correspondences", VBool false);
  ("s2s/gicp/rotation_epsilon", VDouble (1#500));
  ("s2s/gicp/correspondence_randomness", VInt 20);
  ("s2s/gicp/maximum_optimizer_iterations", VInt 10);
  ("s2s/gicp/translation_gradient_tolerance", VDouble (1#100));
  ("s2s/gicp/rotation_gradient_tolerance", VDouble (1#100));
  ("s2s/lsq/rotation_epsilon", VDouble (1#500));
  ("s2s/lsq/initial_lambda_factor", VDouble (1#1000000000));
  ("s2s/lsq/debug_print", VBool false);
  ("s2s/fast_gicp/num_threads", VInt 8);
  ("s2s/fast_gicp/correspondence_randomness", VInt 20);
  ("s2s/fast_gicp/regularization_method", VStr "PLANE");
  ("s2s/fast_vgicp/resolution", VDouble (1#1));
  ("s2s/fast_vgicp/voxel_accumulation_mode", VStr "ADDITIVE");
  ("s2s/fast_vgicp/neighbor_search_method", VStr "DIRECT1");
  ("s2s/ndt/resolution", VDouble (1#1));
  ("s2s/ndt/step_size", VDouble (1#10));
  ("s2s/ndt/outlier_ratio", VDouble (11#20));
  ("s2m/enabled", VBool true);
  ("s2m/method", VStr "fast_gicp");
  ("s2m/base/maximum_iterations", VInt 30);
  ("s2m/base/ransac_iterations", VInt 0);
  ("s2m/base/ransac_outlier_rejection_threshold", VDouble (1#20));
  ("s2m/base/max_correspondence_distance", VDouble (1#2));
  ("s2m/base/transformation_epsilon", VDouble (1#1000));
  ("s2m/base/transformation_rotation_epsilon", VDouble (1#10000));
  ("s2m/base/euclidean_fitness_epsilon", VDouble (1#10000));
  ("s2m/icp/use_reciprocal_correspondences", VBool false);
  ("s2m/gicp/rotation_epsilon", VDouble (1#500));
  ("s2m/gicp/correspondence_randomness", VInt 20);
  ("s2m/gicp/maximum_optimizer_iterations", VInt 10);
  ("s2m/gicp/translation_gradient_tolerance", VDouble (1#100));
  ("s2m/gicp/rotation_gradient_tolerance", VDouble (1#100));
  ("s2m/lsq/rotation_epsilon", VDouble (1#500));
  ("s2m/lsq/initial_lambda_factor", VDouble (1#1000000000));
  ("s2m/lsq/debug_print", VBool false);
  ("s2m/fast_gicp/num_threads", VInt 8);
  ("s2m/fast_gicp/correspondence_randomness", VInt 20);
  ("s2m/fast_gicp/regularization_method", VStr "PLANE");
  ("s2m/fast_vgicp/resolution", VDouble (1#1));
  ("s2m/fast_vgicp/voxel_accumulation_mode", VStr "ADDITIVE");
  ("s2m/fast_vgicp/neighbor_search_method", VStr "DIRECT1");
  ("s2m/ndt/resolution", VDouble (1#1));
  ("s2m/ndt/step_size", VDouble (1#10));
  ("s2m/ndt/outlier_ratio", VDouble (11#20));
  ("map_frame_id", VStr "map");
  ("mapping/frame_extraction_method", VStr "NEARBY");
  ("mapping/frame_extraction_number", VInt 20);
  ("mapping/distance_threshold", VDouble (1#10));
  ("mapping/rotation_threshold", VDouble (1308996938995747#25000000000000000));
  ("mapping/voxel_grid_filter/enabled_local", VBool true);
  ("mapping/voxel_grid_filter/enabled_global", VBool true);
  ("mapping/voxel_grid_filter/leaf_size", VDouble (1#20));
  ("mapping/voxel_grid_filter/minimum_points_number_per_voxel", VInt 1);
  ("stereo_factors/noise/left_x", VDouble (5#1));
  ("stereo_factors/noise/right_x", VDouble (5#1));
  ("stereo_factors/noise/y", VDouble (25#2));
  ("stereo_factors/robust/enabled", VBool true);
  ("stereo_factors/robust/type", VStr "huber");
  ("stereo_factors/robust/cauchy/k", VDouble (1#10));
  ("stereo_factors/robust/cauchy/reweight_scheme", VStr "BLOCK");
  ("stereo_factors/robust/dcs/c", VDouble (1#1));
  ("stereo_factors/robust/dcs/reweight_scheme", VStr "BLOCK");
  ("stereo_factors/robust/fair/c", VDouble (6999#5000));
  ("stereo_factors/robust/fair/reweight_scheme", VStr "BLOCK");
  ("stereo_factors/robust/geman_mcclure/c", VDouble (1#1));
  ("stereo_factors/robust/geman_mcclure/reweight_scheme", VStr "BLOCK");
  ("stereo_factors/robust/huber/k", VDouble (269#200));
  ("stereo_factors/robust/huber/reweight_scheme", VStr "BLOCK");
  ("stereo_factors/robust/l2_with_dead_zone/k", VDouble (1#1));
  ("stereo_factors/robust/l2_with_dead_zone/reweight_scheme", VStr "BLOCK");
  ("stereo_factors/robust/tukey/c", VDouble (46851#10000));
  ("stereo_factors/robust/tukey/reweight_scheme", VStr "BLOCK");
  ("stereo_factors/robust/welsch/c", VDouble (14923#5000));
  ("stereo_factors/robust/welsch/reweight_scheme", VStr "BLOCK");
  ("stereo_factors/left_cam_frame", VStr "left_stereo_left_cam");
  ("stereo_tracking/only_graph_frames", VBool true);
  ("stereo_tracking/new_feature_dist_threshold", VDouble (5#1));
  ("stereo_tracking/detector/type", VStr "GFTT");
  ("stereo_tracking/detector/fast/threshold", VInt 10);
  ("stereo_tracking/detector/fast/nonmax_suppression", VBool true);
  ("stereo_tracking/detector/fast/type", VStr "TYPE_9_16");
  ("stereo_tracking/detector/gftt/max_corners", VInt 100);
  ("stereo_tracking/detector/gftt/quality_level", VDouble (1#100));
  ("stereo_tracking/detector/gftt/min_distance", VDouble (1#1));
  ("stereo_tracking/detector/gftt/block_size", VInt 3);
  ("stereo_tracking/detector/gftt/use_harris_detector", VBool false);
  ("stereo_tracking/detector/gftt/k", VDouble (1#25));
  ("stereo_tracking/detector/orb/num_features", VInt 100);
  ("stereo_tracking/detector/orb/scale_factor", VDouble (6#5));
  ("stereo_tracking/detector/orb/num_levels", VInt 8);
  ("stereo_tracking/detector/orb/edge_threshold", VInt 31);
  ("stereo_tracking/detector/orb/first_level", VInt 0);
  ("stereo_tracking/detector/orb/wta_k", VInt 2);
  ("stereo_tracking/detector/orb/score_type", VStr "HARRIS_SCORE");
  ("stereo_tracking/detector/orb/patch_size", VInt 31);
  ("stereo_tracking/detector/orb/fast_threshold", VInt 20);
  ("stereo_tracking/detector/sift/num_features", VInt 100);
  ("stereo_tracking/detector/sift/num_octave_layers", VInt 3);
  ("stereo_tracking/detector/sift/contrast_threshold", VDouble (1#25));
  ("stereo_tracking/detector/sift/edge_threshold", VDouble (10#1));
  ("stereo_tracking/detector/sift/sigma", VDouble (8#5));
  ("stereo_tracking/stereo_match_filter/vertical_pixel_threshold", VDouble (25#1));
  ("stereo_tracking/stereo_distance_filter/enabled", VBool true);
  ("stereo_tracking/stereo_distance_filter/max_distance", VDouble (15#1));
  ("stereo_tracking/stereo_distance_filter/min_distance", VDouble (1#1));
  ("stereo_tracking/sparse_optical_flow/type", VStr "PyrLK");
  ("stereo_tracking/sparse_optical_flow/pyrlk/win_size", VList [VInt 21; VInt 21]);
  ("stereo_tracking/sparse_optical_flow/pyrlk/max_level", VInt 3);
  ("stereo_tracking/sparse_optical_flow/pyrlk/term_criteria/type", VStr "COUNT+EPS");
  ("stereo_tracking/sparse_optical_flow/pyrlk/term_criteria/max_count", VInt 30);
  ("stereo_tracking/sparse_optical_flow/pyrlk/term_criteria/epsilon", VDouble (1#100));
  ("stereo_tracking/sparse_optical_flow/pyrlk/flags", VInt 0);
  ("stereo_tracking/sparse_optical_flow/pyrlk/min_eig_threshold", VDouble (1#10000));
  ("stereo_tracking/stereo_keypoint_matcher/cost_function", VStr "SSD");
  ("stereo_tracking/stereo_keypoint_matcher/window_size/width", VInt 7);
  ("stereo_tracking/stereo_keypoint_matcher/window_size/height", VInt 7);
  ("stereo_tracking/stereo_keypoint_matcher/cost_threshold", VDouble (1000000000#1));
  ("stereo_tracking/stereo_keypoint_matcher/vertical_pixel_threshold", VDouble (25#1));
  ("stereo_tracking/stereo_keypoint_matcher/matching_filter", VStr "RATIO_TEST");
  ("stereo_tracking/stereo_keypoint_matcher/ratio", VDouble (1#10));
  ("debug/registration/check_normals", VBool false);
  ("debug/registration/publish_clouds", VBool true);
  ("debug/registration/publish_clouds_alt", VBool false);
  ("debug/stereo/print_stats", VBool true);
  ("debug/stereo/publish_stats", VBool true);
  ("debug/stereo/publish_intermediate_results", VBool true);
  ("debug/stereo/publish_points", VBool false);
  ("debug/stereo/rich_keypoints", VBool false);
  ("debug/stereo/rich_matches", VBool false);
  ("debug/optimisation/publish_stereo_points", VBool false);
  ("debug/optimisation/on_crash/save", VBool true);
  ("debug/optimisation/on_crash/print", VBool true);
  ("debug/optimisation/on_crash/print_options/verbose", VBool false);
  ("debug/optimisation/on_crash/print_options/min_error", VDouble (10#1))].
(* ue4_missions/config/serpent/ue4_platform.yaml *)
Definition ue4_robot : list (list string * xv) := [
  (["base_link"; "frame_id"], XString "base_link");
  (["base_link"; "frames"; "imu"; "translation"; "x"], XDouble (0));
  (["base_link"; "frames"; "imu"; "translation"; "y"], XDouble (0));
  (["base_link"; "frames"; "imu"; "translation"; "y"], XDouble (0));
  (["base_link"; "frames"; "imu"; "rotation"; "w"], XDouble (1));
  (["base_link"; "frames"; "imu"; "rotation"; "x"], XDouble (0));
  (["base_link"; "frames"; "imu"; "rotation"; "y"], XDouble (0));
  (["base_link"; "frames"; "imu"; "rotation"; "z"], XDouble (0));
  (["base_link"; "frames"; "lidar"; "translation"; "x"], XDouble (0));
  (["base_link"; "frames"; "lidar"; "translation"; "y"], XDouble (0));
  (["base_link"; "frames"; "lidar"; "translation"; "z"], XDouble (0));
  (["base_link"; "frames"; "lidar"; "rotation"; "w"], XDouble (0));
  (["base_link"; "frames"; "lidar"; "rotation"; "x"], XDouble (1));
  (["base_link"; "frames"; "lidar"; "rotation"; "y"], XDouble (0));
  (["base_link"; "frames"; "lidar"; "rotation"; "z"], XDouble (0));
  (["base_link"; "frames"; "camera"; "rotation"; "w"], XDouble ((-1) / 2));
  (["base_link"; "frames"; "camera"; "rotation"; "x"], XDouble (1 / 2));
  (["base_link"; "frames"; "camera"; "rotation"; "y"], XDouble ((-1) / 2));
  (["base_link"; "frames"; "camera"; "rotation"; "z"], XDouble (1 / 2));
  (["base_link"; "frames"; "camera"; "frames"; "left_cam"; "translation"; "x"], XDouble ((-1) / 20));
  (["base_link"; "frames"; "camera"; "frames"; "right_cam"; "translation"; "x"], XDouble (1 / 20))]%R.
(* ue4_missions/config/serpent/mission/icy_surface.yaml *)
Definition ue4_icy_surface : list (string * pval) := [("gravity", VDouble (49#5)); ("pose/position/x", VDouble (-19999804496765137#10000000000000000)); ("pose/position/y", VDouble (-2236328087747#2000000000000000)); ("pose/position/z", VDouble (3637079954147339#1000000000000000))].
(* ue4_missions/config/serpent/{filter,format,normal_estimation,tuning,debug}.yaml *)
Definition ue4_files : list (string * pval) := [
  ("first_pointcloud_removal/enabled", VBool false);
  ("time_field_filter/enabled", VBool false);
  ("time_field_filter/max", VDouble (1#10));
  ("body_filter/enabled", VBool false);
  ("body_filter/min/x", VDouble (0#1));
  ("body_filter/min/y", VDouble (0#1));
  ("body_filter/min/z", VDouble (0#1));
  ("body_filter/max/x", VDouble (0#1));
  ("body_filter/max/y", VDouble (0#1));
  ("body_filter/max/z", VDouble (0#1));
  ("body_filter/translation/x", VDouble (0#1));
  ("body_filter/translation/y", VDouble (0#1));
  ("body_filter/translation/z", VDouble (0#1));
  ("body_filter/rotation/rx", VDouble (0#1));
  ("body_filter/rotation/ry", VDouble (0#1));
  ("body_filter/rotation/rz", VDouble (0#1));
  ("random_sample_filter/enabled", VBool false);
  ("random_sample_filter/sample_size", VInt 5000);
  ("random_sample_filter/random_seed", VInt 0);
  ("range_filter/enabled", VBool false);
  ("range_filter/min", VDouble (0#1));
  ("range_filter/max", VDouble (1000000000000#1));
  ("statistical_outlier_removal/enabled", VBool false);
  ("statistical_outlier_removal/mean_k", VInt 1);
  ("statistical_outlier_removal/stddev_mul_thresh", VDouble (0#1));
  ("voxel_grid_filter/enabled", VBool true);
  ("voxel_grid_filter/leaf_size", VDouble (1#10));
  ("voxel_grid_filter/minimum_points_number_per_voxel", VInt 1);
  ("stereo_mask/enabled", VBool true);
  ("stereo_mask/top_left_x", VInt 0);
  ("stereo_mask/top_left_y", VInt 360);
  ("stereo_mask/height", VInt 360);
  ("stereo_mask/width", VInt 720);
  ("pointcloud_type", VStr "CUSTOM");
  ("normal_estimation/threads", VInt 1);
  ("normal_estimation/viewpoint/x", VDouble (0#1));
  ("normal_estimation/viewpoint/y", VDouble (0#1));
  ("normal_estimation/viewpoint/z", VDouble (0#1));
  ("normal_estimation/method", VStr "knn");
  ("normal_estimation/k", VInt 30);
  ("normal_estimation/radius", VDouble (1#1));
  ("prior_noise/position", VDouble (1#1000));
  ("prior_noise/rotation", VDouble (1#1000));
  ("prior_noise/linear_velocity", VDouble (1#1000));
  ("prior_noise/accelerometer_bias", VDouble (1#10000));
  ("prior_noise/gyroscope_bias", VDouble (1#10000));
  ("prior_noise/barometer_bias", VDouble (1#1000000));
  ("imu/reference_frame", VStr "NWU");
  ("imu/noise/integration", VDouble (1#10000));
  ("imu/noise/integration_bias", VDouble (3#1000));
  ("imu/noise/accelerometer_bias", VDouble (433#100000));
  ("imu/noise/gyroscope_bias", VDouble (133#5000000));
  ("imu/noise/overwrite", VBool true);
  ("imu/noise/accelerometer", VDouble (93#50000));
  ("imu/noise/gyroscope", VDouble (187#1000000));
  ("barometer/noise/barometer_bias", VDouble (1#1000000));
  ("barometer/noise/overwrite", VBool true);
  ("barometer/noise/barometer", VDouble (1#100));
  ("mdc/translation", VBool true);
  ("mdc/rotation", VBool true);
  ("isam2/optimization", VStr "GaussNewton");
  ("isam2/gauss_newton_params/wildfire_threshold", VDouble (1#1000));
  ("isam2/dogleg_params/initial_delta", VDouble (1#1));
  ("isam2/dogleg_params/wildfire_threshold", VDouble (1#100000));
  ("isam2/dogleg_params/trust_region_adaptation_mode", VStr "SEARCH_EACH_ITERATION");
  ("isam2/dogleg_params/verbose", VBool false);
  ("isam2/relinearize_threshold", VDouble (1#10));
  ("isam2/relinearize_skip", VInt 10);
  ("isam2/enable_relinearization", VBool true);
  ("isam2/evaluate_nonlinear_error", VBool false);
  ("isam2/factorization", VStr "CHOLESKY");
  ("isam2/cache_linearized_factors", VBool true);
  ("optimisation/factors/barometer", VBool false);
  ("optimisation/factors/imu", VBool true);
  ("optimisation/factors/registration", VBool true);
  ("optimisation/factors/stereo", VBool false);
  ("optimisation/marginalisation/enabled", VBool false);
  ("optimisation/marginalisation/window_size", VInt 100);
  ("registration_covariance/method", VStr "CENSI");
  ("registration_covariance/model", VStr "POINT_TO_PLANE_LINEARISED");
  ("registration_covariance/constant/rotation", VDouble (174533#10000000));
  ("registration_covariance/constant/translation", VDouble (1#100));
  ("registration_covariance/point_covariance/method", VStr "CONSTANT");
  ("registration_covariance/point_covariance/constant", VDouble (1#20));
  ("registration_covariance/point_covariance/range_noise", VDouble (1#20));
  ("registration_covariance/point_covariance/range_bias_noise", VDouble (1#50));
  ("s2s/method", VStr "fast_gicp");
  ("s2s/base/maximum_iterations", VInt 30);
  ("s2s/base/ransac_iterations", VInt 0);
  ("s2s/base/ransac_outlier_rejection_threshold", VDouble (1#20));
  ("s2s/base/max_correspondence_distance", VDouble (1#2));
  ("s2s/base/transformation_epsilon", VDouble (1#1000));
  ("s2s/base/transformation_rotation_epsilon", VDouble (1#10000));
  ("s2s/base/euclidean_fitness_epsilon", VDouble (1#10000));
  ("s2s/icp/use_reciprocal_correspondences", VBool false);
  ("s2s/gicp/rotation_epsilon", VDouble (1#500));
  ("s2s/gicp/correspondence_randomness", VInt 20);
  ("s2s/gicp/maximum_optimizer_iterations", VInt 10);
  ("s2s/gicp/translation_gradient_tolerance", VDouble (1#100));
  ("s2s/gicp/rotation_gradient_tolerance", VDouble (1#100));
  ("s2s/lsq/rotation_epsilon", VDouble (1#500));
  ("s2s/lsq/initial_lambda_factor", VDouble (1#1000000000));
  ("s2s/lsq/debug_print", VBool false);
  ("s2s/fast_gicp/num_threads", VInt 8);
  ("s2s/fast_gicp/correspondence_randomness", VInt 20);
  ("s2s/fast_gicp/regularization_method", VStr "PLANE");
  ("s2s/fast_vgicp/resolution", VDouble (1#1));
  ("s2s/fast_vgicp/voxel_accumulation_mode", VStr "ADDITIVE");
  ("s2s/fast_vgicp/neighbor_search_method", VStr "DIRECT1");
  ("s2s/ndt/resolution", VDouble (1#1));
  ("s2s/ndt/step_size", VDouble (1#10));
  ("s2s/ndt/outlier_ratio", VDouble (11#20));
  ("s2m/enabled", VBool true);
  ("s2m/method", VStr "fast_gicp");
  ("s2m/base/maximum_iterations", VInt 30);
  ("s2m/base/ransac_iterations", VInt 0);
  ("s2m/base/ransac_outlier_rejection_threshold", VDouble (1#20));
  ("s2m/base/max_correspondence_distance", VDouble (1#2));
  ("s2m/base/transformation_epsilon", VDouble (1#1000));
  ("s2m/base/transformation_rotation_epsilon", VDouble (1#10000));
  ("s2m/base/euclidean_fitness_epsilon", VDouble (1#10000));
  ("s2m/icp/use_reciprocal_correspondences", VBool false);
  ("s2m/gicp/rotation_epsilon", VDouble (1#500));
  ("s2m/gicp/correspondence_randomness", VInt 20);
  ("s2m/gicp/maximum_optimizer_iterations", VInt 10);
  ("s2m/gicp/translation_gradient_tolerance", VDouble (1#100));
  ("s2m/gicp/rotation_gradient_tolerance", VDouble (1#100));
  ("s2m/lsq/rotation_epsilon", VDouble (1#500));
  ("s2m/lsq/initial_lambda_factor", VDouble (1#1000000000));
  ("s2m/lsq/debug_print", VBool false);
  ("s2m/fast_gicp/num_threads", VInt 8);
  ("s2m/fast_gicp/correspondence_randomness", VInt 20);
  ("s2m/fast_gicp/regularization_method", VStr "PLANE");
  ("s2m/fast_vgicp/resolution", VDouble (1#1));
  ("s2m/fast_vgicp/voxel_accumulation_mode", VStr "ADDITIVE");
  ("s2m/fast_vgicp/neighbor_search_method", VStr "DIRECT1");
  ("s2m/ndt/resolution", VDouble (1#1));
  ("s2m/ndt/step_size", VDouble (1#10));
  ("s2m/ndt/outlier_ratio", VDouble (11#20));
  ("map_frame_id", VStr "map");
  ("mapping/frame_extraction_method", VStr "NEARBY");
  ("mapping/frame_extraction_number", VInt 20);
  ("mapping/distance_threshold", VDouble (1#10));
  ("mapping/rotation_threshold", VDouble (1308996938995747#25000000000000000));
  ("mapping/voxel_grid_filter/enabled_local", VBool true);
  ("mapping/voxel_grid_filter/enabled_global", VBool true);
  ("mapping/voxel_grid_filter/leaf_size", VDouble (1#20));
  ("mapping/voxel_grid_filter/minimum_points_number_per_voxel", VInt 1);
  ("stereo_factors/noise/left_x", VDouble (5#1));
  ("stereo_factors/noise/right_x", VDouble (5#1));
  ("stereo_factors/noise/y", VDouble (5#1));
  ("stereo_factors/robust/enabled", VBool true);
  ("stereo_factors/robust/type", VStr "huber");
  ("stereo_factors/robust/cauchy/k", VDouble (1#10));
  ("stereo_factors/robust/cauchy/reweight_scheme", VStr "BLOCK");
  ("stereo_factors/robust/dcs/c", VDouble (1#1));
  ("stereo_factors/robust/dcs/reweight_scheme", VStr "BLOCK");
  ("stereo_factors/robust/fair/c", VDouble (6999#5000));
  ("stereo_factors/robust/fair/reweight_scheme", VStr "BLOCK");
  ("stereo_factors/robust/geman_mcclure/c", VDouble (1#1));
  ("stereo_factors/robust/geman_mcclure/reweight_scheme", VStr "BLOCK");
  ("stereo_factors/robust/huber/k", VDouble (269#200));
  ("stereo_factors/robust/huber/reweight_scheme", VStr "BLOCK");
  ("stereo_factors/robust/l2_with_dead_zone/k", VDouble (1#1));
  ("stereo_factors/robust/l2_with_dead_zone/reweight_scheme", VStr "BLOCK");
  ("stereo_factors/robust/tukey/c", VDouble (46851#10000));
  ("stereo_factors/robust/tukey/reweight_scheme", VStr "BLOCK");
  ("stereo_factors/robust/welsch/c", VDouble (14923#5000));
  ("stereo_factors/robust/welsch/reweight_scheme", VStr "BLOCK");
  ("stereo_factors/left_cam_frame", VStr "camera");
  ("stereo_tracking/only_graph_frames", VBool true);
  ("stereo_tracking/new_feature_dist_threshold", VDouble (5#1));
  ("stereo_tracking/detector/type", VStr "FAST");
  ("stereo_tracking/detector/fast/threshold", VInt 25);
  ("stereo_tracking/detector/fast/nonmax_suppression", VBool true);
  ("stereo_tracking/detector/fast/type", VStr "TYPE_9_16");
  ("stereo_tracking/detector/gftt/max_corners", VInt 100);
  ("stereo_tracking/detector/gftt/quality_level", VDouble (1#100));
  ("stereo_tracking/detector/gftt/min_distance", VDouble (1#1));
  ("stereo_tracking/detector/gftt/block_size", VInt 3);
  ("stereo_tracking/detector/gftt/use_harris_detector", VBool false);
  ("stereo_tracking/detector/gftt/k", VDouble (1#25));
  ("stereo_tracking/detector/orb/num_features", VInt 500);
  ("stereo_tracking/detector/orb/scale_factor", VDouble (6#5));
  ("stereo_tracking/detector/orb/num_levels", VInt 8);
  ("stereo_tracking/detector/orb/edge_threshold", VInt 31);
  ("stereo_tracking/detector/orb/first_level", VInt 0);
  ("stereo_tracking/detector/orb/wta_k", VInt 2);
  ("stereo_tracking/detector/orb/score_type", VStr "HARRIS_SCORE");
  ("stereo_tracking/detector/orb/patch_size", VInt 31);
  ("stereo_tracking/detector/orb/fast_threshold", VInt 20);
  ("stereo_tracking/detector/sift/num_features", VInt 100);
  ("stereo_tracking/detector/sift/num_octave_layers", VInt 3);
  ("stereo_tracking/detector/sift/contrast_threshold", VDouble (1#25));
  ("stereo_tracking/detector/sift/edge_threshold", VDouble (10#1));
  ("stereo_tracking/detector/sift/sigma", VDouble (8#5));
  ("stereo_tracking/stereo_match_filter/vertical_pixel_threshold", VDouble (5#1));
  ("stereo_tracking/stereo_distance_filter/enabled", VBool true);
  ("stereo_tracking/stereo_distance_filter/max_distance", VDouble (15#1));
  ("stereo_tracking/stereo_distance_filter/min_distance", VDouble (1#1));
  ("stereo_tracking/sparse_optical_flow/type", VStr "PyrLK");
  ("stereo_tracking/sparse_optical_flow/pyrlk/win_size", VList [VInt 21; VInt 21]);
  ("stereo_tracking/sparse_optical_flow/pyrlk/max_level", VInt 3);
  ("stereo_tracking/sparse_optical_flow/pyrlk/term_criteria/type", VStr "COUNT+EPS");
  ("stereo_tracking/sparse_optical_flow/pyrlk/term_criteria/max_count", VInt 30);
  ("stereo_tracking/sparse_optical_flow/pyrlk/term_criteria/epsilon", VDouble (1#100));
  ("stereo_tracking/sparse_optical_flow/pyrlk/flags", VInt 0);
  ("stereo_tracking/sparse_optical_flow/pyrlk/min_eig_threshold", VDouble (1#10000));
  ("stereo_tracking/stereo_keypoint_matcher/cost_function", VStr "SSD");
  ("stereo_tracking/stereo_keypoint_matcher/window_size/width", VInt 7);
  ("stereo_tracking/stereo_keypoint_matcher/window_size/height", VInt 7);
  ("stereo_tracking/stereo_keypoint_matcher/cost_threshold", VDouble (64#1));
  ("stereo_tracking/stereo_keypoint_matcher/vertical_pixel_threshold", VDouble (5#1));
  ("stereo_tracking/stereo_keypoint_matcher/matching_filter", VStr "RATIO_TEST");
  ("stereo_tracking/stereo_keypoint_matcher/ratio", VDouble (1#10));
  ("debug/registration/check_normals", VBool false);
  ("debug/registration/publish_clouds", VBool true);
  ("debug/registration/publish_clouds_alt", VBool false);
  ("debug/stereo/print_stats", VBool true);
  ("debug/stereo/publish_stats", VBool true);
  ("debug/stereo/publish_intermediate_results", VBool true);
  ("debug/stereo/publish_points", VBool false);
  ("debug/stereo/rich_keypoints", VBool false);
  ("debug/stereo/rich_matches", VBool false);
  ("debug/optimisation/publish_stereo_points", VBool false);
  ("debug/optimisation/on_crash/save", VBool true);
  ("debug/optimisation/on_crash/print", VBool true);
  ("debug/optimisation/on_crash/print_options/verbose", VBool false);
  ("debug/optimisation/on_crash/print_options/min_error", VDouble (10#1))].
(* simulator_prcp_missions/config/serpent/eels_head.yaml *)
Definition simulator_robot : list (list string * xv) := [
  (["base_link"; "frame_id"], XString "head_base");
  (["base_link"; "frames"; "imu"; "translation"; "x"], XDouble (0));
  (["base_link"; "frames"; "lidar"; "translation"; "x"], XDouble (3 / 10));
  (["base_link"; "frames"; "lidar"; "translation"; "y"], XDouble (0));
  (["base_link"; "frames"; "lidar"; "translation"; "z"], XDouble ((-3) / 50));
  (["base_link"; "frames"; "lidar"; "rotation"; "w"], XDouble (1));
  (["base_link"; "frames"; "lidar"; "rotation"; "x"], XDouble (0));
  (["base_link"; "frames"; "lidar"; "rotation"; "y"], XDouble (0));
  (["base_link"; "frames"; "lidar"; "rotation"; "z"], XDouble (0));
  (["base_link"; "frames"; "camera_left_left"; "translation"; "x"], XDouble ((-1) / 20));
  (["base_link"; "frames"; "camera_left_left"; "translation"; "y"], XDouble (1 / 10));
  (["base_link"; "frames"; "camera_left_left"; "translation"; "z"], XDouble (0));
  (["base_link"; "frames"; "camera_left_left"; "rotation"; "w"], XDouble (1767767 / 2500000));
  (["base_link"; "frames"; "camera_left_left"; "rotation"; "x"], XDouble ((-1767767) / 2500000));
  (["base_link"; "frames"; "camera_left_left"; "rotation"; "y"], XDouble (0));
  (["base_link"; "frames"; "camera_left_left"; "rotation"; "z"], XDouble (0));
  (["base_link"; "frames"; "camera_left_left"; "frames"; "camera_left_right"; "translation"; "x"], XDouble (1 / 10));
  (["base_link"; "frames"; "camera_right_left"; "translation"; "x"], XDouble (1 / 20));
  (["base_link"; "frames"; "camera_right_left"; "translation"; "y"], XDouble ((-1) / 10));
  (["base_link"; "frames"; "camera_right_left"; "translation"; "z"], XDouble (0));
  (["base_link"; "frames"; "camera_right_left"; "rotation"; "w"], XDouble (0));
  (["base_link"; "frames"; "camera_right_left"; "rotation"; "x"], XDouble (0));
  (["base_link"; "frames"; "camera_right_left"; "rotation"; "y"], XDouble ((-1767767) / 2500000));
  (["base_link"; "frames"; "camera_right_left"; "rotation"; "z"], XDouble (1767767 / 2500000));
  (["base_link"; "frames"; "camera_right_left"; "frames"; "camera_right_right"; "translation"; "x"], XDouble (1 / 10));
  (["base_link"; "frames"; "camera_front_left"; "translation"; "x"], XDouble (1 / 4));
  (["base_link"; "frames"; "camera_front_left"; "translation"; "y"], XDouble (1 / 20));
  (["base_link"; "frames"; "camera_front_left"; "translation"; "z"], XDouble (0));
  (["base_link"; "frames"; "camera_front_left"; "rotation"; "w"], XDouble (1 / 2));
  (["base_link"; "frames"; "camera_front_left"; "rotation"; "x"], XDouble ((-1) / 2));
  (["base_link"; "frames"; "camera_front_left"; "rotation"; "y"], XDouble (1 / 2));
  (["base_link"; "frames"; "camera_front_left"; "rotation"; "z"], XDouble ((-1) / 2));
  (["base_link"; "frames"; "camera_front_left"; "frames"; "camera_front_right"; "translation"; "x"], XDouble (1 / 10))]%R.
(* simulator_prcp_missions/config/serpent/mission/surface_ellipse_1.yaml *)
Definition simulator_surface_ellipse_1 : list (string * pval) := [("gravity", VDouble (49#5)); ("pose/position/x", VDouble (0#1)); ("pose/position/y", VDouble (0#1)); ("pose/position/z", VDouble (1#1)); ("velocity/linear/x", VDouble (0#1)); ("velocity/linear/y", VDouble (7853981633974483#5000000000000000)); ("velocity/linear/z", VDouble (0#1))].
(* simulator_prcp_missions/config/serpent/mission/surface_ellipse_2.yaml *)
Definition simulator_surface_ellipse_2 : list (string * pval) := [("gravity", VDouble (49#5)); ("pose/position/x", VDouble (0#1)); ("pose/position/y", VDouble (0#1)); ("pose/position/z", VDouble (1#1)); ("velocity/linear/x", VDouble (0#1)); ("velocity/linear/y", VDouble (7853981633974483#10000000000000000)); ("velocity/linear/z", VDouble (0#1))].
(* simulator_prcp_missions/config/serpent/mission/surface_spiral_1.yaml *)
Definition simulator_surface_spiral_1 : list (string * pval) := [("gravity", VDouble (49#5)); ("pose/position/x", VDouble (0#1)); ("pose/position/y", VDouble (0#1)); ("pose/position/z", VDouble (1#1))].
(* simulator_prcp_missions/config/serpent/mission/surface_spiral_2.yaml *)
Definition simulator_surface_spiral_2 : list (string * pval) := [("gravity", VDouble (49#5)); ("pose/position/x", VDouble (0#1)); ("pose/position/y", VDouble (0#1)); ("pose/position/z", VDouble (1#1))].
(* simulator_prcp_missions/config/serpent/mission/surface_spiral_2_noiseless.yaml *)
Definition simulator_surface_spiral_2_noiseless : list (string * pval) := [("gravity", VDouble (49#5)); ("pose/position/x", VDouble (0#1)); ("pose/position/y", VDouble (0#1)); ("pose/position/z", VDouble (1#1))].
(* simulator_prcp_missions/config/serpent/mission/surface_stationary_1.yaml *)
Definition simulator_surface_stationary_1 : list (string * pval) := [("gravity", VDouble (49#5)); ("pose/position/x", VDouble (0#1)); ("pose/position/y", VDouble (0#1)); ("pose/position/z", VDouble (1#1))].
(* simulator_prcp_missions/config/serpent/mission/surface_traverse_1.yaml *)
Definition simulator_surface_traverse_1 : list (string * pval) := [("gravity", VDouble (49#5)); ("pose/position/x", VDouble (0#1)); ("pose/position/y", VDouble (0#1)); ("pose/position/z", VDouble (1#1))].
(* simulator_prcp_missions/config/serpent/{filter,format,normal_estimation,tuning,debug}.yaml *)
Definition simulator_files : list (string * pval) := [
  ("first_pointcloud_removal/enabled", VBool false);
  ("time_field_filter/enabled", VBool false);
  ("time_field_filter/max", VDouble (1#10));
  ("body_filter/enabled", VBool false);
  ("body_filter/min/x", VDouble (0#1));
  ("body_filter/min/y", VDouble (0#1));
  ("body_filter/min/z", VDouble (0#1));
  ("body_filter/max/x", VDouble (0#1));
  ("body_filter/max/y", VDouble (0#1));
  ("body_filter/max/z", VDouble (0#1));
  ("body_filter/translation/x", VDouble (0#1));
  ("body_filter/translation/y", VDouble (0#1));
  ("body_filter/translation/z", VDouble (0#1));
  ("body_filter/rotation/rx", VDouble (0#1));
  ("body_filter/rotation/ry", VDouble (0#1));
  ("body_filter/rotation/rz", VDouble (0#1));
  ("random_sample_filter/enabled", VBool false);
  ("random_sample_filter/sample_size", VInt 5000);
  ("random_sample_filter/random_seed", VInt 0);
  ("range_filter/enabled", VBool true);
  ("range_filter/min", VDouble (1#10));
  ("range_filter/max", VInt 1000);
  ("statistical_outlier_removal/enabled", VBool false);
  ("statistical_outlier_removal/mean_k", VInt 1);
  ("statistical_outlier_removal/stddev_mul_thresh", VDouble (0#1));
  ("voxel_grid_filter/enabled", VBool true);
  ("voxel_grid_filter/leaf_size", VDouble (1#4));
  ("voxel_grid_filter/minimum_points_number_per_voxel", VInt 1);
  ("stereo_mask/enabled", VBool false);
  ("stereo_mask/top_left_x", VInt 0);
  ("stereo_mask/top_left_y", VInt 0);
  ("stereo_mask/height", VInt 0);
  ("stereo_mask/width", VInt 0);
  ("pointcloud_type", VStr "CUSTOM");
  ("normal_estimation/threads", VInt 1);
  ("normal_estimation/viewpoint/x", VDouble (0#1));
  ("normal_estimation/viewpoint/y", VDouble (0#1));
  ("normal_estimation/viewpoint/z", VDouble (0#1));
  ("normal_estimation/method", VStr "knn");
  ("normal_estimation/k", VInt 30);
  ("normal_estimation/radius", VDouble (1#1));
  ("prior_noise/position", VDouble (1#1000));
  ("prior_noise/rotation", VDouble (1#1000));
  ("prior_noise/linear_velocity", VDouble (1#1000));
  ("prior_noise/accelerometer_bias", VDouble (1#10000));
  ("prior_noise/gyroscope_bias", VDouble (1#10000));
  ("prior_noise/barometer_bias", VDouble (1#1000000));
  ("imu/reference_frame", VStr "NWU");
  ("imu/noise/integration", VDouble (1#10000));
  ("imu/noise/integration_bias", VDouble (3#1000));
  ("imu/noise/accelerometer_bias", VDouble (1#200000));
  ("imu/noise/gyroscope_bias", VDouble (3#12500000));
  ("imu/noise/overwrite", VBool true);
  ("imu/noise/accelerometer", VDouble (1#2500));
  ("imu/noise/gyroscope", VDouble (303#12500000));
  ("barometer/noise/barometer_bias", VDouble (1#1000000));
  ("barometer/noise/overwrite", VBool true);
  ("barometer/noise/barometer", VDouble (1#100));
  ("mdc/translation", VBool true);
  ("mdc/rotation", VBool true);
  ("isam2/optimization", VStr "GaussNewton");
  ("isam2/gauss_newton_params/wildfire_threshold", VDouble (1#1000));
  ("isam2/dogleg_params/initial_delta", VDouble (1#1));
  ("isam2/dogleg_params/wildfire_threshold", VDouble (1#100000));
  ("isam2/dogleg_params/trust_region_adaptation_mode", VStr "SEARCH_EACH_ITERATION");
  ("isam2/dogleg_params/verbose", VBool false);
  ("isam2/relinearize_threshold", VDouble (1#10));
  ("isam2/relinearize_skip", VInt 10);
  ("isam2/enable_relinearization", VBool true);
  ("isam2/evaluate_nonlinear_error", VBool false);
  ("isam2/factorization", VStr "CHOLESKY");
  ("isam2/cache_linearized_factors", VBool true);
  ("optimisation/factors/barometer", VBool false);
  ("optimisation/factors/imu", VBool true);
  ("optimisation/factors/registration", VBool true);
  ("optimisation/factors/stereo", VBool false);
  ("optimisation/marginalisation/enabled", VBool false);
  ("optimisation/marginalisation/window_size", VInt 100);
  ("registration_covariance/method", VStr "CENSI");
  ("registration_covariance/model", VStr "POINT_TO_PLANE_LINEARISED");
  ("registration_covariance/constant/rotation", VDouble (174533#10000000));
  ("registration_covariance/constant/translation", VDouble (1#100));
  ("registration_covariance/point_covariance/method", VStr "CONSTANT");
  ("registration_covariance/point_covariance/constant", VDouble (1#20));
  ("registration_covariance/point_covariance/range_noise", VDouble (1#20));
  ("registration_covariance/point_covariance/range_bias_noise", VDouble (1#50));
  ("s2s/method", VStr "fast_gicp");
  ("s2s/base/maximum_iterations", VInt 30);
  ("s2s/base/ransac_iterations", VInt 0);
  ("s2s/base/ransac_outlier_rejection_threshold", VDouble (1#20));
  ("s2s/base/max_correspondence_distance", VDouble (1#2));
  ("s2s/base/transformation_epsilon", VDouble (1#1000));
  ("s2s/base/transformation_rotation_epsilon", VDouble (1#10000));
  ("s2s/base/euclidean_fitness_epsilon", VDouble (1#10000));
  ("s2s/icp/use_reciprocal_correspondences", VBool false);
  ("s2s/gicp/rotation_epsilon", VDouble (1#500));
  ("s2s/gicp/correspondence_randomness", VInt 20);
  ("s2s/gicp/maximum_optimizer_iterations", VInt 10);
  ("s2s/gicp/translation_gradient_tolerance", VDouble (1#100));
  ("s2s/gicp/rotation_gradient_tolerance", VDouble (1#100));
  ("s2s/lsq/rotation_epsilon", VDouble (1#500));
  ("s2s/lsq/initial_lambda_factor", VDouble (1#1000000000));
  ("s2s/lsq/debug_print", VBool false);
  ("s2s/fast_gicp/num_threads", VInt 8);
  ("s2s/fast_gicp/correspondence_randomness", VInt 20);
  ("s2s/fast_gicp/regularization_method", VStr "PLANE");
  ("s2s/fast_vgicp/resolution", VDouble (1#1));
  ("s2s/fast_vgicp/voxel_accumulation_mode", VStr "ADDITIVE");
  ("s2s/fast_vgicp/neighbor_search_method", VStr "DIRECT1");
  ("s2s/ndt/resolution", VDouble (1#1));
  ("s2s/ndt/step_size", VDouble (1#10));
  ("s2s/ndt/outlier_ratio", VDouble (11#20));
  ("s2m/enabled", VBool true);
  ("s2m/method", VStr "fast_gicp");
  ("s2m/base/maximum_iterations", VInt 30);
  ("s2m/base/ransac_iterations", VInt 0);
  ("s2m/base/ransac_outlier_rejection_threshold", VDouble (1#20));
  ("s2m/base/max_correspondence_distance", VDouble (1#2));
  ("s2m/base/transformation_epsilon", VDouble (1#1000));
  ("s2m/base/transformation_rotation_epsilon", VDouble (1#10000));
  ("s2m/base/euclidean_fitness_epsilon", VDouble (1#10000));
  ("s2m/icp/use_reciprocal_correspondences", VBool false);
  ("s2m/gicp/rotation_epsilon", VDouble (1#500));
  ("s2m/gicp/correspondence_randomness", VInt 20);
  ("s2m/gicp/maximum_optimizer_iterations", VInt 10);
  ("s2m/gicp/translation_gradient_tolerance", VDouble (1#100));
  ("s2m/gicp/rotation_gradient_tolerance", VDouble (1#100));
  ("s2m/lsq/rotation_epsilon", VDouble (1#500));
  ("s2m/lsq/initial_lambda_factor", VDouble (1#1000000000));
  ("s2m/lsq/debug_print", VBool false);
  ("s2m/fast_gicp/num_threads", VInt 8);
  ("s2m/fast_gicp/correspondence_randomness", VInt 20);
  ("s2m/fast_gicp/regularization_method", VStr "PLANE");
  ("s2m/fast_vgicp/resolution", VDouble (1#1));
  ("s2m/fast_vgicp/voxel_accumulation_mode", VStr "ADDITIVE");
  ("s2m/fast_vgicp/neighbor_search_method", VStr "DIRECT1");
  ("s2m/ndt/resolution", VDouble (1#1));
  ("s2m/ndt/step_size", VDouble (1#10));
  ("s2m/ndt/outlier_ratio", VDouble (11#20));
  ("map_frame_id", VStr "map");
  ("mapping/frame_extraction_method", VStr "NEARBY");
  ("mapping/frame_extraction_number", VInt 20);
  ("mapping/distance_threshold", VDouble (1#10));
  ("mapping/rotation_threshold", VDouble (1308996938995747#25000000000000000));
  ("mapping/voxel_grid_filter/enabled_local", VBool true);
  ("mapping/voxel_grid_filter/enabled_global", VBool true);
  ("mapping/voxel_grid_filter/leaf_size", VDouble (1#20));
  ("mapping/voxel_grid_filter/minimum_points_number_per_voxel", VInt 1);
  ("stereo_factors/noise/left_x", VDouble (5#1));
  ("stereo_factors/noise/right_x", VDouble (5#1));
  ("stereo_factors/noise/y", VDouble (10#1));
  ("stereo_factors/robust/enabled", VBool true);
  ("stereo_factors/robust/type", VStr "huber");
  ("stereo_factors/robust/cauchy/k", VDouble (1#10));
  ("stereo_factors/robust/cauchy/reweight_scheme", VStr "BLOCK");
  ("stereo_factors/robust/dcs/c", VDouble (1#1));
  ("stereo_factors/robust/dcs/reweight_scheme", VStr "BLOCK");
  ("stereo_factors/robust/fair/c", VDouble (6999#5000));
  ("stereo_factors/robust/fair/reweight_scheme", VStr "BLOCK");
  ("stereo_factors/robust/geman_mcclure/c", VDouble (1#1));
  ("stereo_factors/robust/geman_mcclure/reweight_scheme", VStr "BLOCK");
  ("stereo_factors/robust/huber/k", VDouble (269#200));
  ("stereo_factors/robust/huber/reweight_scheme", VStr "BLOCK");
  ("stereo_factors/robust/l2_with_dead_zone/k", VDouble (1#1));
  ("stereo_factors/robust/l2_with_dead_zone/reweight_scheme", VStr "BLOCK");
  ("stereo_factors/robust/tukey/c", VDouble (46851#10000));
  ("stereo_factors/robust/tukey/reweight_scheme", VStr "BLOCK");
  ("stereo_factors/robust/welsch/c", VDouble (14923#5000));
  ("stereo_factors/robust/welsch/reweight_scheme", VStr "BLOCK");
  ("stereo_factors/left_cam_frame", VStr "camera_front_left");
  ("stereo_tracking/only_graph_frames", VBool true);
  ("stereo_tracking/new_feature_dist_threshold", VDouble (5#1));
  ("stereo_tracking/detector/type", VStr "GFTT");
  ("stereo_tracking/detector/fast/threshold", VInt 20);
  ("stereo_tracking/detector/fast/nonmax_suppression", VBool true);
  ("stereo_tracking/detector/fast/type", VStr "TYPE_9_16");
  ("stereo_tracking/detector/gftt/max_corners", VInt 250);
  ("stereo_tracking/detector/gftt/quality_level", VDouble (1#100));
  ("stereo_tracking/detector/gftt/min_distance", VDouble (1#1));
  ("stereo_tracking/detector/gftt/block_size", VInt 3);
  ("stereo_tracking/detector/gftt/use_harris_detector", VBool false);
  ("stereo_tracking/detector/gftt/k", VDouble (1#25));
  ("stereo_tracking/detector/orb/num_features", VInt 250);
  ("stereo_tracking/detector/orb/scale_factor", VDouble (6#5));
  ("stereo_tracking/detector/orb/num_levels", VInt 8);
  ("stereo_tracking/detector/orb/edge_threshold", VInt 31);
  ("stereo_tracking/detector/orb/first_level", VInt 0);
  ("stereo_tracking/detector/orb/wta_k", VInt 2);
  ("stereo_tracking/detector/orb/score_type", VStr "HARRIS_SCORE");
  ("stereo_tracking/detector/orb/patch_size", VInt 31);
  ("stereo_tracking/detector/orb/fast_threshold", VInt 20);
  ("stereo_tracking/detector/sift/num_features", VInt 100);
  ("stereo_tracking/detector/sift/num_octave_layers", VInt 3);
  ("stereo_tracking/detector/sift/contrast_threshold", VDouble (1#25));
  ("stereo_tracking/detector/sift/edge_threshold", VDouble (10#1));
  ("stereo_tracking/detector/sift/sigma", VDouble (8#5));
  ("stereo_tracking/stereo_match_filter/vertical_pixel_threshold", VDouble (1#1));
  ("stereo_tracking/stereo_distance_filter/enabled", VBool true);
  ("stereo_tracking/stereo_distance_filter/max_distance", VDouble (15#1));
  ("stereo_tracking/stereo_distance_filter/min_distance", VDouble (1#1));
  ("stereo_tracking/sparse_optical_flow/type", VStr "PyrLK");
  ("stereo_tracking/sparse_optical_flow/pyrlk/win_size", VList [VInt 21; VInt 21]);
  ("stereo_tracking/sparse_optical_flow/pyrlk/max_level", VInt 3);
  ("stereo_tracking/sparse_optical_flow/pyrlk/term_criteria/type", VStr "COUNT+EPS");
  ("stereo_tracking/sparse_optical_flow/pyrlk/term_criteria/max_count", VInt 30);
  ("stereo_tracking/sparse_optical_flow/pyrlk/term_criteria/epsilon", VDouble (1#100));
  ("stereo_tracking/sparse_optical_flow/pyrlk/flags", VInt 0);
  ("stereo_tracking/sparse_optical_flow/pyrlk/min_eig_threshold", VDouble (1#10000));
  ("stereo_tracking/stereo_keypoint_matcher/cost_function", VStr "SSD");
  ("stereo_tracking/stereo_keypoint_matcher/window_size/width", VInt 7);
  ("stereo_tracking/stereo_keypoint_matcher/window_size/height", VInt 7);
  ("stereo_tracking/stereo_keypoint_matcher/cost_threshold", VDouble (1000000000#1));
  ("stereo_tracking/stereo_keypoint_matcher/vertical_pixel_threshold", VDouble (1#1));
  ("stereo_tracking/stereo_keypoint_matcher/matching_filter", VStr "RATIO_TEST");
  ("stereo_tracking/stereo_keypoint_matcher/ratio", VDouble (1#10));
  ("debug/registration/check_normals", VBool false);
  ("debug/registration/publish_clouds", VBool true);
  ("debug/registration/publish_clouds_alt", VBool false);
  ("debug/stereo/print_stats", VBool true);
  ("debug/stereo/publish_stats", VBool true);
  ("debug/stereo/publish_intermediate_results", VBool true);
  ("debug/stereo/publish_points", VBool true);
  ("debug/stereo/rich_keypoints", VBool false);
  ("debug/stereo/rich_matches", VBool false);
  ("debug/optimisation/publish_stereo_points", VBool true);
  ("debug/optimisation/on_crash/save", VBool true);
  ("debug/optimisation/on_crash/print", VBool true);
  ("debug/optimisation/on_crash/print_options/verbose", VBool false);
  ("debug/optimisation/on_crash/print_options/min_error", VDouble (10#1))].
