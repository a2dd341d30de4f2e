(* The shipped configuration starts and is wired; what it lacks. *)
From Coq Require Import ZArith QArith List Bool String Reals.
From Verif Require Import Base NetModel CfgModel CfgSpec CfgProofs WrModel WrSpec WrProofs WrTheorems.
From Verif Require StModel BfModel BfExamples Geo Interp.
Import ListNotations.
Open Scope string_scope.
Open Scope list_scope.

(* config/robot_default.yaml; the entry `y` of the imu is there twice and `z` is missing *)
Definition zeros : BfModel.xv := BfModel.XStruct [("x", BfModel.XDouble 0); ("y", BfModel.XDouble 0); ("z", BfModel.XDouble 0)].
Definition upright : BfModel.xv := BfModel.XStruct [("w", BfModel.XDouble 1); ("x", BfModel.XDouble 0); ("y", BfModel.XDouble 0); ("z", BfModel.XDouble 0)].
Definition robot : BfModel.xv := BfModel.XStruct [("base_link", BfModel.XStruct [("frames", BfModel.XStruct [
  ("imu", BfModel.XStruct [("translation", BfModel.XStruct [("x", BfModel.XDouble 0); ("y", BfModel.XDouble 0)]); ("rotation", upright)]);
  ("lidar", BfModel.XStruct [("translation", zeros); ("rotation", upright)]);
  ("stereo", BfModel.XStruct [("translation", zeros); ("rotation", upright)])])])].
(* the other files of config/ *)
Definition shipped_list : list (string * pval) := [
  ("gravity", VDouble (981#100));
  ("pose/position/x", VDouble (0#1));
  ("pose/position/y", VDouble (0#1));
  ("pose/position/z", VDouble (0#1));
  ("first_pointcloud_removal/enabled", VBool false);
  ("time_field_filter/enabled", VBool false);
  ("time_field_filter/max", VDouble (1#10));
  ("body_filter/enabled", VBool false);
  ("body_filter/min/x", VDouble (0#1));
  ("body_filter/min/y", VDouble (0#1));
  ("body_filter/min/z", VDouble (0#1));
  ("body_filter/max/x", VDouble (0#1));
  ("body_filter/max/y", VDouble (0#1));
  ("body_filter/max/z", VDouble (0#1));
  ("body_filter/translation/x", VDouble (0#1));
  ("body_filter/translation/y", VDouble (0#1));
  ("body_filter/translation/z", VDouble (0#1));
  ("body_filter/rotation/rx", VDouble (0#1));
  ("body_filter/rotation/ry", VDouble (0#1));
  ("body_filter/rotation/rz", VDouble (0#1));
  ("random_sample_filter/enabled", VBool false);
  ("random_sample_filter/sample_size", VInt 5000);
  ("random_sample_filter/random_seed", VInt 0);
  ("range_filter/enabled", VBool true);
  ("range_filter/min", VDouble (1#10));
  ("range_filter/max", VInt 1000);
  ("statistical_outlier_removal/enabled", VBool false);
  ("statistical_outlier_removal/mean_k", VInt 1);
  ("statistical_outlier_removal/stddev_mul_thresh", VDouble (0#1));
  ("voxel_grid_filter/enabled", VBool true);
  ("voxel_grid_filter/leaf_size", VDouble (1#10));
  ("voxel_grid_filter/minimum_points_number_per_voxel", VInt 1);
  ("stereo_mask/enabled", VBool false);
  ("stereo_mask/top_left_x", VInt 0);
  ("stereo_mask/top_left_y", VInt 0);
  ("stereo_mask/height", VInt 0);
  ("stereo_mask/width", VInt 0);
  ("pointcloud_type", VStr "OUSTER");
  ("normal_estimation/threads", VInt 1);
  ("normal_estimation/viewpoint/x", VDouble (0#1));
  ("normal_estimation/viewpoint/y", VDouble (0#1));
  ("normal_estimation/viewpoint/z", VDouble (0#1));
  ("normal_estimation/method", VStr "knn");
  ("normal_estimation/k", VInt 30);
  ("normal_estimation/radius", VDouble (1#1));
  ("prior_noise/position", VDouble (1#1000));
  ("prior_noise/rotation", VDouble (1#1000));
  ("prior_noise/linear_velocity", VDouble (1#1000));
  ("prior_noise/accelerometer_bias", VDouble (1#1000));
  ("prior_noise/gyroscope_bias", VDouble (1#1000));
  ("prior_noise/barometer_bias", VDouble (1#1000000));
  ("imu/reference_frame", VStr "NED");
  ("imu/noise/integration", VDouble (1#1000));
  ("imu/noise/integration_bias", VDouble (1#1000));
  ("imu/noise/accelerometer_bias", VDouble (1#1000));
  ("imu/noise/gyroscope_bias", VDouble (1#1000));
  ("imu/noise/overwrite", VBool false);
  ("imu/noise/accelerometer", VDouble (1#1000));
  ("imu/noise/gyroscope", VDouble (1#1000));
  ("barometer/noise/barometer_bias", VDouble (1#1000000));
  ("barometer/noise/overwrite", VBool true);
  ("barometer/noise/barometer", VDouble (1#100));
  ("mdc/translation", VBool true);
  ("mdc/rotation", VBool true);
  ("isam2/optimization", VStr "GaussNewton");
  ("isam2/gauss_newton_params/wildfire_threshold", VDouble (1#1000));
  ("isam2/dogleg_params/initial_delta", VDouble (1#1));
  ("isam2/dogleg_params/wildfire_threshold", VDouble (1#100000));
  ("isam2/dogleg_params/trust_region_adaptation_mode", VStr "SEARCH_EACH_ITERATION");
  ("isam2/dogleg_params/verbose", VBool false);
  ("isam2/relinearize_threshold", VDouble (1#10));
  ("isam2/relinearize_skip", VInt 10);
  ("isam2/enable_relinearization", VBool true);
  ("isam2/evaluate_nonlinear_error", VBool false);
  ("isam2/factorization", VStr "CHOLESKY");
  ("isam2/cache_linearized_factors", VBool true);
  ("optimisation/factors/barometer", VBool true);
  ("optimisation/factors/imu", VBool true);
  ("optimisation/factors/registration", VBool true);
  ("optimisation/factors/stereo", VBool true);
  ("optimisation/marginalisation/enabled", VBool false);
  ("optimisation/marginalisation/window_size", VInt 100);
  ("registration_covariance/method", VStr "CENSI");
  ("registration_covariance/model", VStr "POINT_TO_PLANE_LINEARISED");
  ("registration_covariance/constant/rotation", VDouble (174533#10000000));
  ("registration_covariance/constant/translation", VDouble (1#100));
  ("registration_covariance/point_covariance/method", VStr "CONSTANT");
  ("registration_covariance/point_covariance/constant", VDouble (1#20));
  ("registration_covariance/point_covariance/range_noise", VDouble (1#20));
  ("registration_covariance/point_covariance/range_bias_noise", VDouble (1#50));
  ("s2s/method", VStr "fast_gicp");
  ("s2s/base/maximum_iterations", VInt 30);
  ("s2s/base/ransac_iterations", VInt 0);
  ("s2s/base/ransac_outlier_rejection_threshold", VDouble (1#20));
  ("s2s/base/max_correspondence_distance", VDouble (1#2));
  ("s2s/base/transformation_epsilon", VDouble (1#1000));
  ("s2s/base/transformation_rotation_epsilon", VDouble (1#10000));
  ("s2s/base/euclidean_fitness_epsilon", VDouble (1#10000));
  ("s2s/icp/use_reciprocal_correspondences", VBool false);
  ("s2s/gicp/rotation_epsilon", VDouble (1#500));
  ("s2s/gicp/correspondence_randomness", VInt 20);
  ("s2s/gicp/maximum_optimizer_iterations", VInt 20);
  ("s2s/gicp/translation_gradient_tolerance", VDouble (1#100));
  ("s2s/gicp/rotation_gradient_tolerance", VDouble (1#100));
  ("s2s/lsq/rotation_epsilon", VDouble (1#500));
  ("s2s/lsq/initial_lambda_factor", VDouble (1#1000000000));
  ("s2s/lsq/debug_print", VBool false);
  ("s2s/fast_gicp/num_threads", VInt 4);
  ("s2s/fast_gicp/correspondence_randomness", VInt 20);
  ("s2s/fast_gicp/regularization_method", VStr "PLANE");
  ("s2s/fast_vgicp/resolution", VDouble (1#1));
  ("s2s/fast_vgicp/voxel_accumulation_mode", VStr "ADDITIVE");
  ("s2s/fast_vgicp/neighbor_search_method", VStr "DIRECT1");
  ("s2s/ndt/resolution", VDouble (1#1));
  ("s2s/ndt/step_size", VDouble (1#10));
  ("s2s/ndt/outlier_ratio", VDouble (11#20));
  ("s2m/enabled", VBool true);
  ("s2m/method", VStr "fast_gicp");
  ("s2m/base/maximum_iterations", VInt 30);
  ("s2m/base/ransac_iterations", VInt 0);
  ("s2m/base/ransac_outlier_rejection_threshold", VDouble (1#20));
  ("s2m/base/max_correspondence_distance", VDouble (1#2));
  ("s2m/base/transformation_epsilon", VDouble (1#1000));
  ("s2m/base/transformation_rotation_epsilon", VDouble (1#10000));
  ("s2m/base/euclidean_fitness_epsilon", VDouble (1#10000));
  ("s2m/icp/use_reciprocal_correspondences", VBool false);
  ("s2m/gicp/rotation_epsilon", VDouble (1#500));
  ("s2m/gicp/correspondence_randomness", VInt 20);
  ("s2m/gicp/maximum_optimizer_iterations", VInt 20);
  ("s2m/gicp/translation_gradient_tolerance", VDouble (1#100));
  ("s2m/gicp/rotation_gradient_tolerance", VDouble (1#100));
  ("s2m/lsq/rotation_epsilon", VDouble (1#500));
  ("s2m/lsq/initial_lambda_factor", VDouble (1#1000000000));
  ("s2m/lsq/debug_print", VBool false);
  ("s2m/fast_gicp/num_threads", VInt 4);
  ("s2m/fast_gicp/correspondence_randomness", VInt 20);
  ("s2m/fast_gicp/regularization_method", VStr "PLANE");
  ("s2m/fast_vgicp/resolution", VDouble (1#1));
  ("s2m/fast_vgicp/voxel_accumulation_mode", VStr "ADDITIVE");
  ("s2m/fast_vgicp/neighbor_search_method", VStr "DIRECT1");
  ("s2m/ndt/resolution", VDouble (1#1));
  ("s2m/ndt/step_size", VDouble (1#10));
  ("s2m/ndt/outlier_ratio", VDouble (11#20));
  ("map_frame_id", VStr "map");
  ("mapping/frame_extraction_method", VStr "NEARBY");
  ("mapping/frame_extraction_number", VInt 20);
  ("mapping/distance_threshold", VDouble (1#10));
  ("mapping/rotation_threshold", VDouble (1308996938995747#25000000000000000));
  ("mapping/voxel_grid_filter/enabled_local", VBool true);
  ("mapping/voxel_grid_filter/enabled_global", VBool true);
  ("mapping/voxel_grid_filter/leaf_size", VDouble (1#20));
  ("mapping/voxel_grid_filter/minimum_points_number_per_voxel", VInt 1);
  ("stereo_factors/noise/left_x", VDouble (5#1));
  ("stereo_factors/noise/right_x", VDouble (5#1));
  ("stereo_factors/noise/y", VDouble (10#1));
  ("stereo_factors/robust/enabled", VBool true);
  ("stereo_factors/robust/type", VStr "huber");
  ("stereo_factors/robust/cauchy/k", VDouble (1#10));
  ("stereo_factors/robust/cauchy/reweight_scheme", VStr "BLOCK");
  ("stereo_factors/robust/dcs/c", VDouble (1#1));
  ("stereo_factors/robust/dcs/reweight_scheme", VStr "BLOCK");
  ("stereo_factors/robust/fair/c", VDouble (6999#5000));
  ("stereo_factors/robust/fair/reweight_scheme", VStr "BLOCK");
  ("stereo_factors/robust/geman_mcclure/c", VDouble (1#1));
  ("stereo_factors/robust/geman_mcclure/reweight_scheme", VStr "BLOCK");
  ("stereo_factors/robust/huber/k", VDouble (269#200));
  ("stereo_factors/robust/huber/reweight_scheme", VStr "BLOCK");
  ("stereo_factors/robust/l2_with_dead_zone/k", VDouble (1#1));
  ("stereo_factors/robust/l2_with_dead_zone/reweight_scheme", VStr "BLOCK");
  ("stereo_factors/robust/tukey/c", VDouble (46851#10000));
  ("stereo_factors/robust/tukey/reweight_scheme", VStr "BLOCK");
  ("stereo_factors/robust/welsch/c", VDouble (14923#5000));
  ("stereo_factors/robust/welsch/reweight_scheme", VStr "BLOCK");
  ("stereo_factors/left_cam_frame", VStr "stereo");
  ("stereo_tracking/only_graph_frames", VBool true);
  ("stereo_tracking/new_feature_dist_threshold", VDouble (5#1));
  ("stereo_tracking/detector/type", VStr "GFTT");
  ("stereo_tracking/detector/fast/threshold", VInt 10);
  ("stereo_tracking/detector/fast/nonmax_suppression", VBool true);
  ("stereo_tracking/detector/fast/type", VStr "TYPE_9_16");
  ("stereo_tracking/detector/gftt/max_corners", VInt 1000);
  ("stereo_tracking/detector/gftt/quality_level", VDouble (1#100));
  ("stereo_tracking/detector/gftt/min_distance", VDouble (1#1));
  ("stereo_tracking/detector/gftt/block_size", VInt 3);
  ("stereo_tracking/detector/gftt/use_harris_detector", VBool false);
  ("stereo_tracking/detector/gftt/k", VDouble (1#25));
  ("stereo_tracking/detector/orb/num_features", VInt 500);
  ("stereo_tracking/detector/orb/scale_factor", VDouble (6#5));
  ("stereo_tracking/detector/orb/num_levels", VInt 8);
  ("stereo_tracking/detector/orb/edge_threshold", VInt 31);
  ("stereo_tracking/detector/orb/first_level", VInt 0);
  ("stereo_tracking/detector/orb/wta_k", VInt 2);
  ("stereo_tracking/detector/orb/score_type", VStr "HARRIS_SCORE");
  ("stereo_tracking/detector/orb/patch_size", VInt 31);
  ("stereo_tracking/detector/orb/fast_threshold", VInt 20);
  ("stereo_tracking/detector/sift/num_features", VInt 10);
  ("stereo_tracking/detector/sift/num_octave_layers", VInt 3);
  ("stereo_tracking/detector/sift/contrast_threshold", VDouble (1#25));
  ("stereo_tracking/detector/sift/edge_threshold", VDouble (10#1));
  ("stereo_tracking/detector/sift/sigma", VDouble (8#5));
  ("stereo_tracking/stereo_match_filter/vertical_pixel_threshold", VDouble (1#1));
  ("stereo_tracking/stereo_distance_filter/enabled", VBool false);
  ("stereo_tracking/stereo_distance_filter/max_distance", VDouble (1000000000#1));
  ("stereo_tracking/stereo_distance_filter/min_distance", VDouble (0#1));
  ("stereo_tracking/sparse_optical_flow/type", VStr "PyrLK");
  ("stereo_tracking/sparse_optical_flow/pyrlk/win_size", VList [VInt 21; VInt 21]);
  ("stereo_tracking/sparse_optical_flow/pyrlk/max_level", VInt 3);
  ("stereo_tracking/sparse_optical_flow/pyrlk/term_criteria/type", VStr "COUNT+EPS");
  ("stereo_tracking/sparse_optical_flow/pyrlk/term_criteria/max_count", VInt 30);
  ("stereo_tracking/sparse_optical_flow/pyrlk/term_criteria/epsilon", VDouble (1#100));
  ("stereo_tracking/sparse_optical_flow/pyrlk/flags", VInt 0);
  ("stereo_tracking/sparse_optical_flow/pyrlk/min_eig_threshold", VDouble (1#10000));
  ("stereo_tracking/stereo_keypoint_matcher/cost_function", VStr "SSD");
  ("stereo_tracking/stereo_keypoint_matcher/window_size/width", VInt 7);
  ("stereo_tracking/stereo_keypoint_matcher/window_size/height", VInt 7);
  ("stereo_tracking/stereo_keypoint_matcher/cost_threshold", VDouble (1000000000#1));
  ("stereo_tracking/stereo_keypoint_matcher/vertical_pixel_threshold", VDouble (1#1));
  ("stereo_tracking/stereo_keypoint_matcher/matching_filter", VStr "RATIO_TEST");
  ("stereo_tracking/stereo_keypoint_matcher/ratio", VDouble (1#10));
  ("debug/registration/check_normals", VBool false);
  ("debug/registration/publish_clouds", VBool false);
  ("debug/registration/publish_clouds_alt", VBool false);
  ("debug/stereo/print_stats", VBool false);
  ("debug/stereo/publish_stats", VBool false);
  ("debug/stereo/publish_intermediate_results", VBool false);
  ("debug/stereo/publish_points", VBool false);
  ("debug/stereo/rich_keypoints", VBool false);
  ("debug/stereo/rich_matches", VBool false);
  ("debug/optimisation/publish_stereo_points", VBool false);
  ("debug/optimisation/on_crash/save", VBool false);
  ("debug/optimisation/on_crash/print", VBool true);
  ("debug/optimisation/on_crash/print_options/verbose", VBool false);
  ("debug/optimisation/on_crash/print_options/min_error", VDouble (0#1))].
Fixpoint assoc (l : list (string * pval)) (k : string) : option pval :=
  match l with [] => None | (k', v) :: r => if String.eqb k k' then Some v else assoc r k end.
Definition shipped : params := assoc shipped_list.
Definition any_estimator (r : robust) : bool := true.

Lemma robot_loads : exists b, BfModel.load BfExamples.no_tf robot = Ok b /\ can (BfModel.static_transforms BfExamples.no_tf b) /\ (exists id, BfModel.frame_id b "base_link" = Ok id) /\
  can (BfModel.body_to_frame BfExamples.no_tf b "imu" 0) /\ can (BfModel.body_to_frame BfExamples.no_tf b "stereo" 0) /\ can (BfModel.body_to_frame BfExamples.no_tf b "lidar" 0).
Proof.
  unfold can. cbv -[R0 R1 Rplus Rmult Ropp Rinv Rdiv Rlt_dec sqrt IZR IPR IPR_2 INR BfModel.qnormalise Geo.qmat Geo.mmul Geo.mapply Geo.vadd Geo.mT Geo.vopp].
  eexists. split; [reflexivity|]. repeat split; eexists; reflexivity.
Qed.
Ltac yes := apply on_bool; vm_compute; reflexivity.
Ltac no H := exfalso; apply on_bool in H; vm_compute in H; discriminate H.
Ltac runs := eexists; vm_compute; reflexivity.
Lemma robot_frames P : p_str P "stereo_factors/left_cam_frame" "stereo" = "stereo" -> exists b, BfModel.load BfExamples.no_tf robot = Ok b /\ can (BfModel.static_transforms BfExamples.no_tf b) /\
    (exists id, BfModel.frame_id b "base_link" = Ok id) /\ can (BfModel.body_to_frame BfExamples.no_tf b "imu" 0) /\
    (with_stereo P -> can (BfModel.body_to_frame BfExamples.no_tf b (p_str P "stereo_factors/left_cam_frame" "stereo") 0)) /\
    (with_registration P -> can (BfModel.body_to_frame BfExamples.no_tf b "lidar" 0)).
Proof. intros E. destruct robot_loads as (b & L & T & I & A & B & C). exists b. rewrite E. auto 10. Qed.
Example shipped_accepted : accepted BfExamples.no_tf any_estimator shipped robot.
Proof.
  constructor.
  - apply robot_frames. vm_compute. reflexivity.
  - intros _. split; yes.
  - intros H. no H.
  - intros _. vm_compute. discriminate.
  - intros _. vm_compute. discriminate.
  - vm_compute. tauto.
  - intros _ _. eexists. split; [vm_compute; reflexivity | reflexivity].
  - intros H. no H.
  - vm_compute. tauto.
  - runs.
  - intros _. split; runs.
  - intros _. vm_compute. split; [discriminate | tauto].
  - intros _. split; [runs|]. vm_compute. repeat split; discriminate.
  - vm_compute. discriminate.
Qed.
(* no parameters but the frames: everything has a default *)
Definition nothing : params := fun _ => None.
Example defaults_accepted : accepted BfExamples.no_tf any_estimator nothing robot.
Proof.
  constructor.
  - apply robot_frames. vm_compute. reflexivity.
  - intros _. split; yes.
  - intros H. no H.
  - intros H. no H.
  - intros _. vm_compute. discriminate.
  - vm_compute. tauto.
  - intros _ _. eexists. split; [vm_compute; reflexivity | reflexivity].
  - intros H. no H.
  - vm_compute. tauto.
  - runs.
  - intros _. split; runs.
  - intros _. vm_compute. split; [discriminate | tauto].
  - intros _. split; [runs|]. vm_compute. repeat split; discriminate.
  - vm_compute. discriminate.
Qed.
Example shipped_starts : exists ms, single BfExamples.no_tf any_estimator shipped robot = Ok ms.
Proof. apply accepted_iff. exact shipped_accepted. Qed.
(* the hypotheses of the wiring theorems are met with all factors, and without debugging *)
Example shipped_switches : with_registration shipped /\ with_stereo shipped /\ with_barometer shipped /\ ~ debug_on shipped.
Proof.
  split; [yes|]. split; [yes|]. split; [yes|]. intros [H|[[_ H]|[_ [H|[H|H]]]]]; no H.
Qed.
Example shipped_split : exists ms a b, single BfExamples.no_tf any_estimator shipped robot = Ok ms /\ frontend_node BfExamples.no_tf shipped robot = Ok a /\ backend_node BfExamples.no_tf any_estimator shipped robot = Ok b.
Proof. destruct shipped_starts as [ms H]. pose proof (proj1 (split_starts _ _ _ _) (ex_intro _ ms H)) as [[a A] [b B]]. eauto 6. Qed.

(* The default list of record.launch: with the shipped configuration the tracker's statistics are recorded by
   name but nobody publishes them, and the distances' statistics come from a tool that is not started. *)
Theorem recorded_refuted : exists P ms, single BfExamples.no_tf any_estimator P robot = Ok ms /\ with_stereo P /\
  exists t, In t recorded /\ ~ exists k, publishes ms (Port t k).
Proof.
  destruct shipped_starts as [ms H]. exists shipped, ms. split; [exact H|]. split; [yes|]. exists "/serpent/stereo/statistics". split; [cbn; tauto|].
  intros I. apply (recorded_available _ _ _ _ ms _ H) in I; [|cbn; tauto]. destruct I as [I|[[I _]|(_ & _ & I)]]; [cbn in I; intuition discriminate | discriminate I | no I].
Qed.
(* Without registration three topics are published that nobody reads: the claim needs registration. *)
Definition no_registration : params := pset shipped "optimisation/factors/registration" (VBool false).
Example unread_without_registration : exists ms p, single BfExamples.no_tf any_estimator no_registration robot = Ok ms /\ ~ debug_on no_registration /\ publishes ms p /\ ~ (reads ms p \/ output no_registration p).
Proof.
  assert (A : accepted BfExamples.no_tf any_estimator no_registration robot).
  { constructor.
    - apply robot_frames. vm_compute. reflexivity.
    - intros _. split; yes.
    - intros H. no H.
    - intros _. vm_compute. discriminate.
    - intros _. vm_compute. discriminate.
    - vm_compute. tauto.
    - intros _ _. eexists. split; [vm_compute; reflexivity | reflexivity].
    - intros H. no H.
    - vm_compute. tauto.
    - runs.
    - intros H. no H.
    - intros H. no H.
    - intros _. split; [runs|]. vm_compute. repeat split; discriminate.
    - vm_compute. discriminate. }
  apply accepted_iff in A. destruct A as [ms H]. exists ms, (Port "/serpent/optimisation/path_changes" Path). split; [exact H|]. split; [intros [I|[[I _]|[_ [I|[I|I]]]]]; no I|].
  pose proof H as H'. apply single_mods in H'. destruct H' as (l & Hl & E). assert (N : l = None) by (vm_compute in Hl; injection Hl as <-; reflexivity). subst l. split.
  - rewrite E. exists (op_mod no_registration). split; [cbn; tauto | cbn; tauto].
  - intros [I|I]; [|inversion I]. rewrite E in I. apply subs_in in I. vm_compute in I. intuition discriminate.
Qed.
(* refused: motion distortion correction switched off with stereo factors, no threads, an even window *)
Ltac refused := intros [ms H]; apply (ex_intro (fun m => _ = Ok m)) in H; apply accepted_iff in H.
Example refused_mdc : ~ can (single BfExamples.no_tf any_estimator (pset shipped "mdc/rotation" (VBool false)) robot).
Proof. refused. destruct (a_mdc _ _ _ _ H) as [_ I]; [yes | no I]. Qed.
Example refused_threads : ~ can (single BfExamples.no_tf any_estimator (pset shipped "threads" (VInt 0)) robot).
Proof. refused. pose proof (a_threads _ _ _ _ H) as I. vm_compute in I. apply I. reflexivity. Qed.
Example refused_window : ~ can (single BfExamples.no_tf any_estimator (pset shipped "stereo_tracking/stereo_keypoint_matcher/window_size/width" (VInt 6)) robot).
Proof. refused. destruct (a_stereo _ _ _ _ H) as (_ & [_ I] & _); [yes|]. vm_compute in I. discriminate I. Qed.
(* an unknown robust estimator is accepted (a null pointer is stored), an unknown reweighting is not *)
Theorem unknown_estimator_refuted : exists P ms, P "stereo_factors/robust/type" = Some (VStr "none") /\ with_stereo P /\ on_ P "stereo_factors/robust/enabled" true /\
  robust_model P = Ok None /\ single BfExamples.no_tf any_estimator P robot = Ok ms.
Proof.
  set (P := pset shipped "stereo_factors/robust/type" (VStr "none")). assert (A : accepted BfExamples.no_tf any_estimator P robot).
  { constructor.
    - apply robot_frames. vm_compute. reflexivity.
    - intros _. split; yes.
    - intros H. no H.
    - intros _. vm_compute. discriminate.
    - intros _. vm_compute. discriminate.
    - vm_compute. tauto.
    - intros _ _. exists None. split; [vm_compute; reflexivity | discriminate].
    - intros H. no H.
    - vm_compute. tauto.
    - runs.
    - intros _. split; runs.
    - intros _. vm_compute. split; [discriminate | tauto].
    - intros _. split; [runs|]. vm_compute. repeat split; discriminate.
    - vm_compute. discriminate. }
  apply accepted_iff in A. destruct A as [ms H]. exists P, ms. split; [reflexivity|]. split; [yes|]. split; [yes|]. split; [vm_compute; reflexivity | exact H].
Qed.
