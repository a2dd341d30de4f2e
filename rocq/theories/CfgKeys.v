(* Which parameters have an effect.                                                                    *)
From Verif Require Import Base NetModel CfgModel CfgSpec.
From Coq Require Import QArith.
Open Scope string_scope.
Open Scope list_scope.

(* ---------------------------------------------------------------- parameters read *)
Definition keys_read : list string :=
  ["body_filter/enabled";
   "body_filter/min/x";
   "body_filter/min/y";
   "body_filter/min/z";
   "body_filter/max/x";
   "body_filter/max/y";
   "body_filter/max/z";
   "body_filter/translation/x";
   "body_filter/translation/y";
   "body_filter/translation/z";
   "body_filter/rotation/rx";
   "body_filter/rotation/ry";
   "body_filter/rotation/rz";
   "random_sample_filter/enabled";
   "random_sample_filter/sample_size";
   "random_sample_filter/random_seed";
   "range_filter/enabled";
   "range_filter/min";
   "range_filter/max";
   "statistical_outlier_removal/enabled";
   "voxel_grid_filter/enabled";
   "voxel_grid_filter/leaf_size";
   "voxel_grid_filter/minimum_points_number_per_voxel";
   "stereo_mask/enabled";
   "stereo_mask/top_left_x";
   "stereo_mask/top_left_y";
   "stereo_mask/height";
   "stereo_mask/width";
   "registration_covariance/method";
   "registration_covariance/model";
   "registration_covariance/constant/rotation";
   "registration_covariance/constant/translation";
   "registration_covariance/point_covariance/method";
   "registration_covariance/point_covariance/constant";
   "registration_covariance/point_covariance/range_noise";
   "registration_covariance/point_covariance/range_bias_noise";
   "s2s/method";
   "s2s/base/maximum_iterations";
   "s2s/base/ransac_iterations";
   "s2s/base/ransac_outlier_rejection_threshold";
   "s2s/base/max_correspondence_distance";
   "s2s/base/transformation_epsilon";
   "s2s/base/transformation_rotation_epsilon";
   "s2s/base/euclidean_fitness_epsilon";
   "s2s/icp/use_reciprocal_correspondences";
   "s2s/gicp/rotation_epsilon";
   "s2s/gicp/correspondence_randomness";
   "s2s/gicp/maximum_optimizer_iterations";
   "s2s/lsq/rotation_epsilon";
   "s2s/lsq/initial_lambda_factor";
   "s2s/lsq/debug_print";
   "s2s/fast_gicp/num_threads";
   "s2s/fast_gicp/correspondence_randomness";
   "s2s/fast_gicp/regularization_method";
   "s2s/fast_vgicp/resolution";
   "s2s/fast_vgicp/voxel_accumulation_mode";
   "s2s/fast_vgicp/neighbor_search_method";
   "s2s/ndt/resolution";
   "s2s/ndt/step_size";
   "s2s/ndt/outlier_ratio";
   "s2m/enabled";
   "s2m/method";
   "s2m/base/maximum_iterations";
   "s2m/base/ransac_iterations";
   "s2m/base/ransac_outlier_rejection_threshold";
   "s2m/base/max_correspondence_distance";
   "s2m/base/transformation_epsilon";
   "s2m/base/transformation_rotation_epsilon";
   "s2m/base/euclidean_fitness_epsilon";
   "s2m/icp/use_reciprocal_correspondences";
   "s2m/gicp/rotation_epsilon";
   "s2m/gicp/correspondence_randomness";
   "s2m/gicp/maximum_optimizer_iterations";
   "s2m/lsq/rotation_epsilon";
   "s2m/lsq/initial_lambda_factor";
   "s2m/lsq/debug_print";
   "s2m/fast_gicp/num_threads";
   "s2m/fast_gicp/correspondence_randomness";
   "s2m/fast_gicp/regularization_method";
   "s2m/fast_vgicp/resolution";
   "s2m/fast_vgicp/voxel_accumulation_mode";
   "s2m/fast_vgicp/neighbor_search_method";
   "s2m/ndt/resolution";
   "s2m/ndt/step_size";
   "s2m/ndt/outlier_ratio";
   "stereo_factors/robust/type";
   "stereo_factors/robust/cauchy/k";
   "stereo_factors/robust/cauchy/reweight_scheme";
   "stereo_factors/robust/dcs/c";
   "stereo_factors/robust/dcs/reweight_scheme";
   "stereo_factors/robust/fair/c";
   "stereo_factors/robust/fair/reweight_scheme";
   "stereo_factors/robust/geman_mcclure/c";
   "stereo_factors/robust/geman_mcclure/reweight_scheme";
   "stereo_factors/robust/huber/k";
   "stereo_factors/robust/huber/reweight_scheme";
   "stereo_factors/robust/l2_with_dead_zone/k";
   "stereo_factors/robust/l2_with_dead_zone/reweight_scheme";
   "stereo_factors/robust/tukey/c";
   "stereo_factors/robust/tukey/reweight_scheme";
   "stereo_factors/robust/welsch/c";
   "stereo_factors/robust/welsch/reweight_scheme";
   "stereo_tracking/new_feature_dist_threshold";
   "stereo_tracking/detector/type";
   "stereo_tracking/detector/fast/threshold";
   "stereo_tracking/detector/fast/nonmax_suppression";
   "stereo_tracking/detector/fast/type";
   "stereo_tracking/detector/gftt/max_corners";
   "stereo_tracking/detector/gftt/quality_level";
   "stereo_tracking/detector/gftt/min_distance";
   "stereo_tracking/detector/gftt/block_size";
   "stereo_tracking/detector/gftt/use_harris_detector";
   "stereo_tracking/detector/gftt/k";
   "stereo_tracking/detector/orb/num_features";
   "stereo_tracking/detector/orb/scale_factor";
   "stereo_tracking/detector/orb/num_levels";
   "stereo_tracking/detector/orb/edge_threshold";
   "stereo_tracking/detector/orb/first_level";
   "stereo_tracking/detector/orb/wta_k";
   "stereo_tracking/detector/orb/score_type";
   "stereo_tracking/detector/orb/patch_size";
   "stereo_tracking/detector/orb/fast_threshold";
   "stereo_tracking/detector/sift/num_features";
   "stereo_tracking/detector/sift/num_octave_layers";
   "stereo_tracking/detector/sift/edge_threshold";
   "stereo_tracking/detector/sift/sigma";
   "stereo_tracking/stereo_match_filter/vertical_pixel_threshold";
   "stereo_tracking/sparse_optical_flow/type";
   "stereo_tracking/stereo_keypoint_matcher/cost_function";
   "stereo_tracking/stereo_keypoint_matcher/window_size/width";
   "stereo_tracking/stereo_keypoint_matcher/window_size/height";
   "stereo_tracking/stereo_keypoint_matcher/cost_threshold";
   "stereo_tracking/stereo_keypoint_matcher/vertical_pixel_threshold";
   "stereo_tracking/stereo_keypoint_matcher/matching_filter";
   "stereo_tracking/stereo_keypoint_matcher/ratio";
   "normal_estimation/threads";
   "normal_estimation/viewpoint/x";
   "normal_estimation/viewpoint/y";
   "normal_estimation/viewpoint/z";
   "normal_estimation/method";
   "normal_estimation/k";
   "normal_estimation/radius";
   "optimisation/factors/registration";
   "statistical_outlier_removal_filter/mean_k";
   "statistical_outlier_removal_filter/stddev_mul_thresh";
   "stereo_tracking/detector/sift/constrast_threshold";
   "stereo_tracking/sparse_optical_flow/win_size";
   "stereo_tracking/sparse_optical_flow/max_level";
   "stereo_tracking/sparse_optical_flow/term_criteria/type";
   "stereo_tracking/sparse_optical_flow/term_criteria/max_count";
   "stereo_tracking/sparse_optical_flow/term_criteria/epsilon";
   "stereo_tracking/sparse_optical_flow/flags";
   "stereo_tracking/sparse_optical_flow/min_eig_threshold"].
Definition inb (k : string) (l : list string) : bool := existsb (String.eqb k) l.
Lemma inb_In k l : inb k l = true <-> In k l.
Proof.
  unfold inb. rewrite existsb_exists. split; [intros (x & H & E); apply String.eqb_eq in E; subst; exact H|].
  intros H. exists k. rewrite String.eqb_refl. auto.
Qed.

Section Read.
  Variables P P' : params.
  Hypothesis H : forall k, inb k keys_read = true -> P k = P' k.
  Lemma rb k d : inb k keys_read = true -> p_bool P k d = p_bool P' k d.
  Proof. intros I. unfold p_bool. rewrite (H k I). reflexivity. Qed.
  Lemma ri k d : inb k keys_read = true -> p_int P k d = p_int P' k d.
  Proof. intros I. unfold p_int. rewrite (H k I). reflexivity. Qed.
  Lemma rn k d : inb k keys_read = true -> p_num P k d = p_num P' k d.
  Proof. intros I. unfold p_num. rewrite (H k I). reflexivity. Qed.
  Lemma rs k d : inb k keys_read = true -> p_str P k d = p_str P' k d.
  Proof. intros I. unfold p_str. rewrite (H k I). reflexivity. Qed.
  Lemma rl k d : inb k keys_read = true -> p_ints P k d = p_ints P' k d.
  Proof. intros I. unfold p_ints. rewrite (H k I). reflexivity. Qed.
  Lemma ro k : inb k keys_read = true -> p_optnum P k = p_optnum P' k.
  Proof. intros I. unfold p_optnum. rewrite (H k I). reflexivity. Qed.
  Ltac rd := repeat first
    [ match goal with |- context [p_bool P ?k ?d] => rewrite (rb k d eq_refl) end
    | match goal with |- context [p_int P ?k ?d] => rewrite (ri k d eq_refl) end
    | match goal with |- context [p_num P ?k ?d] => rewrite (rn k d eq_refl) end
    | match goal with |- context [p_str P ?k ?d] => rewrite (rs k d eq_refl) end
    | match goal with |- context [p_ints P ?k ?d] => rewrite (rl k d eq_refl) end
    | match goal with |- context [p_optnum P ?k] => rewrite (ro k eq_refl) end ].
  Lemma read_filter input : filter_ctor P input = filter_ctor P' input.
  Proof. unfold filter_ctor, en_voxel, en_body, en_range, en_sor, en_rand, p_num3. cbv zeta. rd. reflexivity. Qed.
  Lemma read_normal input : normal_ctor P input = normal_ctor P' input.
  Proof. unfold normal_ctor, p_num3. cbv zeta. rd. reflexivity. Qed.
  Lemma read_nodes : lidar_nodes P = lidar_nodes P'.
  Proof.
    unfold lidar_nodes. cbv zeta. rd. destruct (p_bool P' "optimisation/factors/registration" true); [|reflexivity].
    destruct (requires_unit_s _ _) as [u| |]; cbn [rbind]; try reflexivity. rewrite read_filter.
    match goal with |- context [if ?b then filter_ctor _ _ else _] => destruct b end; cbn [rbind].
    - destruct (filter_ctor P' _); cbn [rbind]; try reflexivity. rewrite read_normal. reflexivity.
    - rewrite read_normal. reflexivity.
  Qed.
  Lemma read_reg : reg_config P = reg_config P'.
  Proof. unfold reg_config. cbv zeta. rd. reflexivity. Qed.
  Lemma read_match : matchers P = matchers P'.
  Proof. unfold matchers, matcher_config, lsq_config, base_config. cbv zeta. rd. reflexivity. Qed.
  Lemma read_stereo : stereo_config P = stereo_config P'.
  Proof. unfold stereo_config, det_config, flow_config, cost_config. cbv zeta. rd. reflexivity. Qed.
  Lemma read_robust : robust_model P = robust_model P'.
  Proof. unfold robust_model, one_par. cbv zeta. rd. reflexivity. Qed.
  Lemma read_all : configure P = configure P'.
  Proof. unfold configure. rewrite read_nodes, read_reg, read_match, read_stereo, read_robust. reflexivity. Qed.
End Read.

Lemma unread_ignored k : inb k keys_read = false -> ignored k.
Proof.
  intros Hk P v. apply read_all. intros k' Hk'. unfold pset. destruct (String.eqb_spec k k') as [->|]; [congruence | reflexivity].
Qed.

Fixpoint of_list (l : list (string * pval)) : params :=
  match l with [] => fun _ => None | (k, v) :: l' => pset (of_list l') k v end.
Definition witnesses : list (string * list (string * pval) * pval) :=
  [("body_filter/enabled", [], VBool true);
   ("body_filter/min/x", [("body_filter/enabled", VBool true)], VInt 7);
   ("body_filter/min/y", [("body_filter/enabled", VBool true)], VInt 7);
   ("body_filter/min/z", [("body_filter/enabled", VBool true)], VInt 7);
   ("body_filter/max/x", [("body_filter/enabled", VBool true)], VInt 7);
   ("body_filter/max/y", [("body_filter/enabled", VBool true)], VInt 7);
   ("body_filter/max/z", [("body_filter/enabled", VBool true)], VInt 7);
   ("body_filter/translation/x", [("body_filter/enabled", VBool true)], VInt 7);
   ("body_filter/translation/y", [("body_filter/enabled", VBool true)], VInt 7);
   ("body_filter/translation/z", [("body_filter/enabled", VBool true)], VInt 7);
   ("body_filter/rotation/rx", [("body_filter/enabled", VBool true)], VInt 7);
   ("body_filter/rotation/ry", [("body_filter/enabled", VBool true)], VInt 7);
   ("body_filter/rotation/rz", [("body_filter/enabled", VBool true)], VInt 7);
   ("random_sample_filter/enabled", [], VBool true);
   ("random_sample_filter/sample_size", [("random_sample_filter/enabled", VBool true)], VInt 7);
   ("random_sample_filter/random_seed", [("random_sample_filter/enabled", VBool true)], VInt 7);
   ("range_filter/enabled", [], VBool false);
   ("range_filter/min", [("range_filter/enabled", VBool true)], VInt 7);
   ("range_filter/max", [("range_filter/enabled", VBool true)], VInt 7);
   ("statistical_outlier_removal/enabled", [], VBool true);
   ("voxel_grid_filter/enabled", [], VBool false);
   ("voxel_grid_filter/leaf_size", [("voxel_grid_filter/enabled", VBool true)], VInt 7);
   ("voxel_grid_filter/minimum_points_number_per_voxel", [("voxel_grid_filter/enabled", VBool true)], VInt 7);
   ("stereo_mask/enabled", [("stereo_mask/width", VInt 9)], VBool true);
   ("stereo_mask/top_left_x", [("stereo_mask/enabled", VBool true)], VInt 3);
   ("stereo_mask/top_left_y", [("stereo_mask/enabled", VBool true)], VInt 3);
   ("stereo_mask/height", [("stereo_mask/enabled", VBool true)], VInt 3);
   ("stereo_mask/width", [("stereo_mask/enabled", VBool true)], VInt 3);
   ("registration_covariance/method", [], VStr "CONSTANT");
   ("registration_covariance/model", [], VStr "POINT_TO_POINT_LINEARISED");
   ("registration_covariance/constant/rotation", [("registration_covariance/method", VStr "CONSTANT")], VInt 7);
   ("registration_covariance/constant/translation", [("registration_covariance/method", VStr "CONSTANT")], VInt 7);
   ("registration_covariance/point_covariance/method", [], VStr "CONSTANT");
   ("registration_covariance/point_covariance/constant", [("registration_covariance/point_covariance/method", VStr "CONSTANT")], VInt 7);
   ("registration_covariance/point_covariance/range_noise", [], VInt 7);
   ("registration_covariance/point_covariance/range_bias_noise", [("registration_covariance/point_covariance/method", VStr "RANGE_BIAS")], VInt 7);
   ("s2s/method", [], VStr "ndt");
   ("s2s/base/maximum_iterations", [("s2s/method", VStr "icp")], VInt 7);
   ("s2s/base/ransac_iterations", [("s2s/method", VStr "icp")], VInt 7);
   ("s2s/base/ransac_outlier_rejection_threshold", [("s2s/method", VStr "icp")], VInt 7);
   ("s2s/base/max_correspondence_distance", [("s2s/method", VStr "icp")], VInt 7);
   ("s2s/base/transformation_epsilon", [("s2s/method", VStr "icp")], VInt 7);
   ("s2s/base/transformation_rotation_epsilon", [("s2s/method", VStr "icp")], VInt 7);
   ("s2s/base/euclidean_fitness_epsilon", [("s2s/method", VStr "icp")], VInt 7);
   ("s2s/icp/use_reciprocal_correspondences", [("s2s/method", VStr "icp")], VBool true);
   ("s2s/gicp/rotation_epsilon", [("s2s/method", VStr "gicp")], VInt 7);
   ("s2s/gicp/correspondence_randomness", [("s2s/method", VStr "gicp")], VInt 7);
   ("s2s/gicp/maximum_optimizer_iterations", [("s2s/method", VStr "gicp")], VInt 7);
   ("s2s/lsq/rotation_epsilon", [("s2s/method", VStr "fast_gicp")], VInt 7);
   ("s2s/lsq/initial_lambda_factor", [("s2s/method", VStr "fast_gicp")], VInt 7);
   ("s2s/lsq/debug_print", [("s2s/method", VStr "fast_gicp")], VBool true);
   ("s2s/fast_gicp/num_threads", [("s2s/method", VStr "fast_gicp")], VInt 7);
   ("s2s/fast_gicp/correspondence_randomness", [("s2s/method", VStr "fast_gicp")], VInt 7);
   ("s2s/fast_gicp/regularization_method", [("s2s/method", VStr "fast_gicp")], VStr "NONE");
   ("s2s/fast_vgicp/resolution", [("s2s/method", VStr "fast_vgicp")], VInt 7);
   ("s2s/fast_vgicp/voxel_accumulation_mode", [("s2s/method", VStr "fast_vgicp")], VStr "MULTIPLICATIVE");
   ("s2s/fast_vgicp/neighbor_search_method", [("s2s/method", VStr "fast_vgicp")], VStr "DIRECT7");
   ("s2s/ndt/resolution", [("s2s/method", VStr "ndt")], VInt 7);
   ("s2s/ndt/step_size", [("s2s/method", VStr "ndt")], VInt 7);
   ("s2s/ndt/outlier_ratio", [("s2s/method", VStr "ndt")], VInt 7);
   ("s2m/enabled", [], VBool false);
   ("s2m/method", [], VStr "ndt");
   ("s2m/base/maximum_iterations", [("s2m/method", VStr "icp")], VInt 7);
   ("s2m/base/ransac_iterations", [("s2m/method", VStr "icp")], VInt 7);
   ("s2m/base/ransac_outlier_rejection_threshold", [("s2m/method", VStr "icp")], VInt 7);
   ("s2m/base/max_correspondence_distance", [("s2m/method", VStr "icp")], VInt 7);
   ("s2m/base/transformation_epsilon", [("s2m/method", VStr "icp")], VInt 7);
   ("s2m/base/transformation_rotation_epsilon", [("s2m/method", VStr "icp")], VInt 7);
   ("s2m/base/euclidean_fitness_epsilon", [("s2m/method", VStr "icp")], VInt 7);
   ("s2m/icp/use_reciprocal_correspondences", [("s2m/method", VStr "icp")], VBool true);
   ("s2m/gicp/rotation_epsilon", [("s2m/method", VStr "gicp")], VInt 7);
   ("s2m/gicp/correspondence_randomness", [("s2m/method", VStr "gicp")], VInt 7);
   ("s2m/gicp/maximum_optimizer_iterations", [("s2m/method", VStr "gicp")], VInt 7);
   ("s2m/lsq/rotation_epsilon", [("s2m/method", VStr "fast_gicp")], VInt 7);
   ("s2m/lsq/initial_lambda_factor", [("s2m/method", VStr "fast_gicp")], VInt 7);
   ("s2m/lsq/debug_print", [("s2m/method", VStr "fast_gicp")], VBool true);
   ("s2m/fast_gicp/num_threads", [("s2m/method", VStr "fast_gicp")], VInt 7);
   ("s2m/fast_gicp/correspondence_randomness", [("s2m/method", VStr "fast_gicp")], VInt 7);
   ("s2m/fast_gicp/regularization_method", [("s2m/method", VStr "fast_gicp")], VStr "NONE");
   ("s2m/fast_vgicp/resolution", [("s2m/method", VStr "fast_vgicp")], VInt 7);
   ("s2m/fast_vgicp/voxel_accumulation_mode", [("s2m/method", VStr "fast_vgicp")], VStr "MULTIPLICATIVE");
   ("s2m/fast_vgicp/neighbor_search_method", [("s2m/method", VStr "fast_vgicp")], VStr "DIRECT7");
   ("s2m/ndt/resolution", [("s2m/method", VStr "ndt")], VInt 7);
   ("s2m/ndt/step_size", [("s2m/method", VStr "ndt")], VInt 7);
   ("s2m/ndt/outlier_ratio", [("s2m/method", VStr "ndt")], VInt 7);
   ("stereo_factors/robust/type", [], VStr "tukey");
   ("stereo_factors/robust/cauchy/k", [("stereo_factors/robust/type", VStr "cauchy")], VInt 7);
   ("stereo_factors/robust/cauchy/reweight_scheme", [("stereo_factors/robust/type", VStr "cauchy")], VStr "SCALAR");
   ("stereo_factors/robust/dcs/c", [("stereo_factors/robust/type", VStr "dcs")], VInt 7);
   ("stereo_factors/robust/dcs/reweight_scheme", [("stereo_factors/robust/type", VStr "dcs")], VStr "SCALAR");
   ("stereo_factors/robust/fair/c", [("stereo_factors/robust/type", VStr "fair")], VInt 7);
   ("stereo_factors/robust/fair/reweight_scheme", [("stereo_factors/robust/type", VStr "fair")], VStr "SCALAR");
   ("stereo_factors/robust/geman_mcclure/c", [("stereo_factors/robust/type", VStr "geman_mcclure")], VInt 7);
   ("stereo_factors/robust/geman_mcclure/reweight_scheme", [("stereo_factors/robust/type", VStr "geman_mcclure")], VStr "SCALAR");
   ("stereo_factors/robust/huber/k", [("stereo_factors/robust/type", VStr "huber")], VInt 7);
   ("stereo_factors/robust/huber/reweight_scheme", [("stereo_factors/robust/type", VStr "huber")], VStr "SCALAR");
   ("stereo_factors/robust/l2_with_dead_zone/k", [("stereo_factors/robust/type", VStr "l2_with_dead_zone")], VInt 7);
   ("stereo_factors/robust/l2_with_dead_zone/reweight_scheme", [("stereo_factors/robust/type", VStr "l2_with_dead_zone")], VStr "SCALAR");
   ("stereo_factors/robust/tukey/c", [("stereo_factors/robust/type", VStr "tukey")], VInt 7);
   ("stereo_factors/robust/tukey/reweight_scheme", [("stereo_factors/robust/type", VStr "tukey")], VStr "SCALAR");
   ("stereo_factors/robust/welsch/c", [("stereo_factors/robust/type", VStr "welsch")], VInt 7);
   ("stereo_factors/robust/welsch/reweight_scheme", [("stereo_factors/robust/type", VStr "welsch")], VStr "SCALAR");
   ("stereo_tracking/new_feature_dist_threshold", [], VInt 7);
   ("stereo_tracking/detector/type", [], VStr "SIFT");
   ("stereo_tracking/detector/fast/threshold", [("stereo_tracking/detector/type", VStr "FAST")], VInt 7);
   ("stereo_tracking/detector/fast/nonmax_suppression", [("stereo_tracking/detector/type", VStr "FAST")], VBool false);
   ("stereo_tracking/detector/fast/type", [("stereo_tracking/detector/type", VStr "FAST")], VStr "TYPE_5_8");
   ("stereo_tracking/detector/gftt/max_corners", [("stereo_tracking/detector/type", VStr "GFTT")], VInt 7);
   ("stereo_tracking/detector/gftt/quality_level", [("stereo_tracking/detector/type", VStr "GFTT")], VInt 7);
   ("stereo_tracking/detector/gftt/min_distance", [("stereo_tracking/detector/type", VStr "GFTT")], VInt 7);
   ("stereo_tracking/detector/gftt/block_size", [("stereo_tracking/detector/type", VStr "GFTT")], VInt 7);
   ("stereo_tracking/detector/gftt/use_harris_detector", [("stereo_tracking/detector/type", VStr "GFTT")], VBool true);
   ("stereo_tracking/detector/gftt/k", [("stereo_tracking/detector/type", VStr "GFTT")], VInt 7);
   ("stereo_tracking/detector/orb/num_features", [("stereo_tracking/detector/type", VStr "ORB")], VInt 7);
   ("stereo_tracking/detector/orb/scale_factor", [("stereo_tracking/detector/type", VStr "ORB")], VInt 7);
   ("stereo_tracking/detector/orb/num_levels", [("stereo_tracking/detector/type", VStr "ORB")], VInt 7);
   ("stereo_tracking/detector/orb/edge_threshold", [("stereo_tracking/detector/type", VStr "ORB")], VInt 7);
   ("stereo_tracking/detector/orb/first_level", [("stereo_tracking/detector/type", VStr "ORB")], VInt 7);
   ("stereo_tracking/detector/orb/wta_k", [("stereo_tracking/detector/type", VStr "ORB")], VInt 7);
   ("stereo_tracking/detector/orb/score_type", [("stereo_tracking/detector/type", VStr "ORB")], VStr "FAST_SCORE");
   ("stereo_tracking/detector/orb/patch_size", [("stereo_tracking/detector/type", VStr "ORB")], VInt 7);
   ("stereo_tracking/detector/orb/fast_threshold", [("stereo_tracking/detector/type", VStr "ORB")], VInt 7);
   ("stereo_tracking/detector/sift/num_features", [("stereo_tracking/detector/type", VStr "SIFT")], VInt 7);
   ("stereo_tracking/detector/sift/num_octave_layers", [("stereo_tracking/detector/type", VStr "SIFT")], VInt 7);
   ("stereo_tracking/detector/sift/edge_threshold", [("stereo_tracking/detector/type", VStr "SIFT")], VInt 7);
   ("stereo_tracking/detector/sift/sigma", [("stereo_tracking/detector/type", VStr "SIFT")], VInt 7);
   ("stereo_tracking/stereo_match_filter/vertical_pixel_threshold", [], VInt 7);
   ("stereo_tracking/sparse_optical_flow/type", [], VStr "RLOF");
   ("stereo_tracking/stereo_keypoint_matcher/cost_function", [], VStr "NNCC");
   ("stereo_tracking/stereo_keypoint_matcher/window_size/width", [], VInt 7);
   ("stereo_tracking/stereo_keypoint_matcher/window_size/height", [], VInt 7);
   ("stereo_tracking/stereo_keypoint_matcher/cost_threshold", [], VInt 7);
   ("stereo_tracking/stereo_keypoint_matcher/vertical_pixel_threshold", [], VInt 7);
   ("stereo_tracking/stereo_keypoint_matcher/matching_filter", [], VStr "BIDIRECTIONAL");
   ("stereo_tracking/stereo_keypoint_matcher/ratio", [], VInt 7);
   ("normal_estimation/threads", [], VInt 7);
   ("normal_estimation/viewpoint/x", [], VInt 7);
   ("normal_estimation/viewpoint/y", [], VInt 7);
   ("normal_estimation/viewpoint/z", [], VInt 7);
   ("normal_estimation/method", [], VStr "radius");
   ("normal_estimation/k", [], VInt 7);
   ("normal_estimation/radius", [("normal_estimation/method", VStr "radius")], VInt 7)].
Lemma witnesses_ok : Forall (fun '(k, l, v) => configure (pset (of_list l) k v) <> configure (of_list l)) witnesses.
Proof. unfold witnesses. repeat (constructor; [vm_compute; discriminate|]). constructor. Qed.

Lemma documented_split : forallb (fun k => inb k dead_keys || inb k (map (fun '(k, _, _) => k) witnesses)) documented = true /\
  forallb (fun k => inb k documented && negb (inb k keys_read)) dead_keys = true.
Proof. split; vm_compute; reflexivity. Qed.

Theorem ignored_exactly k : In k documented -> (ignored k <-> In k dead_keys).
Proof.
  intros Hd. split.
  - intros Hi. destruct documented_split as [H _]. rewrite forallb_forall in H. specialize (H k Hd). apply orb_true_iff in H.
    destruct H as [H|H]; apply inb_In in H; [exact H|]. exfalso.
    apply in_map_iff in H. destruct H as (((k', l), v) & Ek & Hin). cbn in Ek. subst k'.
    pose proof witnesses_ok as Hw. rewrite Forall_forall in Hw. apply (Hw _ Hin). apply Hi.
  - intros H. destruct documented_split as [_ H2]. rewrite forallb_forall in H2. specialize (H2 k H).
    apply andb_true_iff in H2. destruct H2 as [_ H2]. apply unread_ignored. destruct (inb k keys_read); [discriminate H2 | reflexivity].
Qed.

