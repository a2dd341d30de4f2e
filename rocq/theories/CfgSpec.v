(* What the configuration files promise, stated without the constructors.                            *)
From Verif Require Import Base NetModel NetSpec CfgModel.
From Coq Require Import QArith.
Open Scope string_scope.
Open Scope list_scope.

(* ---------------------------------------------------------------- names *)
(* `parse` accepts exactly the names of the table, each with its value; it throws for other strings *)
Definition reads_names {A} (parse : string -> res A) (names : list (string * A)) : Prop :=
  (forall s a, parse s = Ok a <-> In (s, a) names) /\
  (forall s, ~ In s (map fst names) -> parse s = Throw).
(* every value has a name *)
Definition all_named {A} (names : list (string * A)) : Prop := forall a : A, In a (map snd names).

(* ---------------------------------------------------------------- filters *)
Inductive kind := KVoxel | KBody | KRange | KSor | KRand | KUnit | KNormal.
Definition kind_of (o : op) : kind :=
  match o with
  | OVoxel _ _ => KVoxel | OBody _ _ _ _ _ => KBody | ORange _ _ => KRange | OSor _ _ => KSor
  | ORand _ _ => KRand | OUnit => KUnit | ONormal _ _ _ _ => KNormal
  end.
(* Documented order ("Filtering operations (in order)", pointcloud_filter.cpp:17) with the switch of each filter and
   its default *)
Definition filters : list (kind * (string * bool)) :=
  [(KVoxel, ("voxel_grid_filter/enabled", true)); (KBody, ("body_filter/enabled", false));
   (KRange, ("range_filter/enabled", true)); (KSor, ("statistical_outlier_removal/enabled", false));
   (KRand, ("random_sample_filter/enabled", false))].
(* a switch is on if set to true, or not set to a boolean and on by default *)
Definition on_ (P : params) (k : string) (d : bool) : Prop :=
  P k = Some (VBool true) \/ (d = true /\ forall b, P k <> Some (VBool b)).
(* l lists the kinds of the enabled filters, in the documented order *)
Inductive enabled_in (P : params) : list (kind * (string * bool)) -> list kind -> Prop :=
| en_nil : enabled_in P [] []
| en_on k key d fs l : on_ P key d -> enabled_in P fs l -> enabled_in P ((k, (key, d)) :: fs) (k :: l)
| en_off k key d fs l : ~ on_ P key d -> enabled_in P fs l -> enabled_in P ((k, (key, d)) :: fs) l.

(* the names the filters use for themselves *)
Definition filter_topics : list string :=
  ["/serpent/filter/voxel_filtered_pointcloud"; "/serpent/filter/body_filtered_pointcloud";
   "/serpent/filter/range_filtered_pointcloud"; "/serpent/filter/sor_filtered_pointcloud";
   "/serpent/filter/filtered_pointcloud"].

(* ---------------------------------------------------------------- parameters *)
Definition pset (P : params) (k : string) (v : pval) : params := fun k' => if String.eqb k k' then Some v else P k'.
(* setting k never changes anything *)
Definition ignored (k : string) : Prop := forall P v, configure (pset P k v) = configure P.

(* the keys of config/filter_default.yaml, normal_estimation_default.yaml and the sections registration_covariance,
   s2s, s2m, stereo_factors/robust and stereo_tracking of tuning_default.yaml that concern the constructors above *)
Definition documented : list string :=
  ["body_filter/enabled";
   "body_filter/min/x";
   "body_filter/min/y";
   "body_filter/min/z";
   "body_filter/max/x";
   "body_filter/max/y";
   "body_filter/max/z";
   "body_filter/translation/x";
   "body_filter/translation/y";
   "body_filter/translation/z";
   "body_filter/rotation/rx";
   "body_filter/rotation/ry";
   "body_filter/rotation/rz";
   "random_sample_filter/enabled";
   "random_sample_filter/sample_size";
   "random_sample_filter/random_seed";
   "range_filter/enabled";
   "range_filter/min";
   "range_filter/max";
   "statistical_outlier_removal/enabled";
   "voxel_grid_filter/enabled";
   "voxel_grid_filter/leaf_size";
   "voxel_grid_filter/minimum_points_number_per_voxel";
   "stereo_mask/enabled";
   "stereo_mask/top_left_x";
   "stereo_mask/top_left_y";
   "stereo_mask/height";
   "stereo_mask/width";
   "registration_covariance/method";
   "registration_covariance/model";
   "registration_covariance/constant/rotation";
   "registration_covariance/constant/translation";
   "registration_covariance/point_covariance/method";
   "registration_covariance/point_covariance/constant";
   "registration_covariance/point_covariance/range_noise";
   "registration_covariance/point_covariance/range_bias_noise";
   "s2s/method";
   "s2s/base/maximum_iterations";
   "s2s/base/ransac_iterations";
   "s2s/base/ransac_outlier_rejection_threshold";
   "s2s/base/max_correspondence_distance";
   "s2s/base/transformation_epsilon";
   "s2s/base/transformation_rotation_epsilon";
   "s2s/base/euclidean_fitness_epsilon";
   "s2s/icp/use_reciprocal_correspondences";
   "s2s/gicp/rotation_epsilon";
   "s2s/gicp/correspondence_randomness";
   "s2s/gicp/maximum_optimizer_iterations";
   "s2s/lsq/rotation_epsilon";
   "s2s/lsq/initial_lambda_factor";
   "s2s/lsq/debug_print";
   "s2s/fast_gicp/num_threads";
   "s2s/fast_gicp/correspondence_randomness";
   "s2s/fast_gicp/regularization_method";
   "s2s/fast_vgicp/resolution";
   "s2s/fast_vgicp/voxel_accumulation_mode";
   "s2s/fast_vgicp/neighbor_search_method";
   "s2s/ndt/resolution";
   "s2s/ndt/step_size";
   "s2s/ndt/outlier_ratio";
   "s2m/enabled";
   "s2m/method";
   "s2m/base/maximum_iterations";
   "s2m/base/ransac_iterations";
   "s2m/base/ransac_outlier_rejection_threshold";
   "s2m/base/max_correspondence_distance";
   "s2m/base/transformation_epsilon";
   "s2m/base/transformation_rotation_epsilon";
   "s2m/base/euclidean_fitness_epsilon";
   "s2m/icp/use_reciprocal_correspondences";
   "s2m/gicp/rotation_epsilon";
   "s2m/gicp/correspondence_randomness";
   "s2m/gicp/maximum_optimizer_iterations";
   "s2m/lsq/rotation_epsilon";
   "s2m/lsq/initial_lambda_factor";
   "s2m/lsq/debug_print";
   "s2m/fast_gicp/num_threads";
   "s2m/fast_gicp/correspondence_randomness";
   "s2m/fast_gicp/regularization_method";
   "s2m/fast_vgicp/resolution";
   "s2m/fast_vgicp/voxel_accumulation_mode";
   "s2m/fast_vgicp/neighbor_search_method";
   "s2m/ndt/resolution";
   "s2m/ndt/step_size";
   "s2m/ndt/outlier_ratio";
   "stereo_factors/robust/type";
   "stereo_factors/robust/cauchy/k";
   "stereo_factors/robust/cauchy/reweight_scheme";
   "stereo_factors/robust/dcs/c";
   "stereo_factors/robust/dcs/reweight_scheme";
   "stereo_factors/robust/fair/c";
   "stereo_factors/robust/fair/reweight_scheme";
   "stereo_factors/robust/geman_mcclure/c";
   "stereo_factors/robust/geman_mcclure/reweight_scheme";
   "stereo_factors/robust/huber/k";
   "stereo_factors/robust/huber/reweight_scheme";
   "stereo_factors/robust/l2_with_dead_zone/k";
   "stereo_factors/robust/l2_with_dead_zone/reweight_scheme";
   "stereo_factors/robust/tukey/c";
   "stereo_factors/robust/tukey/reweight_scheme";
   "stereo_factors/robust/welsch/c";
   "stereo_factors/robust/welsch/reweight_scheme";
   "stereo_tracking/new_feature_dist_threshold";
   "stereo_tracking/detector/type";
   "stereo_tracking/detector/fast/threshold";
   "stereo_tracking/detector/fast/nonmax_suppression";
   "stereo_tracking/detector/fast/type";
   "stereo_tracking/detector/gftt/max_corners";
   "stereo_tracking/detector/gftt/quality_level";
   "stereo_tracking/detector/gftt/min_distance";
   "stereo_tracking/detector/gftt/block_size";
   "stereo_tracking/detector/gftt/use_harris_detector";
   "stereo_tracking/detector/gftt/k";
   "stereo_tracking/detector/orb/num_features";
   "stereo_tracking/detector/orb/scale_factor";
   "stereo_tracking/detector/orb/num_levels";
   "stereo_tracking/detector/orb/edge_threshold";
   "stereo_tracking/detector/orb/first_level";
   "stereo_tracking/detector/orb/wta_k";
   "stereo_tracking/detector/orb/score_type";
   "stereo_tracking/detector/orb/patch_size";
   "stereo_tracking/detector/orb/fast_threshold";
   "stereo_tracking/detector/sift/num_features";
   "stereo_tracking/detector/sift/num_octave_layers";
   "stereo_tracking/detector/sift/edge_threshold";
   "stereo_tracking/detector/sift/sigma";
   "stereo_tracking/stereo_match_filter/vertical_pixel_threshold";
   "stereo_tracking/sparse_optical_flow/type";
   "stereo_tracking/stereo_keypoint_matcher/cost_function";
   "stereo_tracking/stereo_keypoint_matcher/window_size/width";
   "stereo_tracking/stereo_keypoint_matcher/window_size/height";
   "stereo_tracking/stereo_keypoint_matcher/cost_threshold";
   "stereo_tracking/stereo_keypoint_matcher/vertical_pixel_threshold";
   "stereo_tracking/stereo_keypoint_matcher/matching_filter";
   "stereo_tracking/stereo_keypoint_matcher/ratio";
   "normal_estimation/threads";
   "normal_estimation/viewpoint/x";
   "normal_estimation/viewpoint/y";
   "normal_estimation/viewpoint/z";
   "normal_estimation/method";
   "normal_estimation/k";
   "normal_estimation/radius";
   "statistical_outlier_removal/mean_k";
   "statistical_outlier_removal/stddev_mul_thresh";
   "s2s/gicp/translation_gradient_tolerance";
   "s2s/gicp/rotation_gradient_tolerance";
   "s2m/gicp/translation_gradient_tolerance";
   "s2m/gicp/rotation_gradient_tolerance";
   "stereo_tracking/detector/sift/contrast_threshold";
   "stereo_tracking/sparse_optical_flow/pyrlk/win_size";
   "stereo_tracking/sparse_optical_flow/pyrlk/max_level";
   "stereo_tracking/sparse_optical_flow/pyrlk/term_criteria/type";
   "stereo_tracking/sparse_optical_flow/pyrlk/term_criteria/max_count";
   "stereo_tracking/sparse_optical_flow/pyrlk/term_criteria/epsilon";
   "stereo_tracking/sparse_optical_flow/pyrlk/flags";
   "stereo_tracking/sparse_optical_flow/pyrlk/min_eig_threshold"].
Definition dead_keys : list string :=
  ["statistical_outlier_removal/mean_k";
   "statistical_outlier_removal/stddev_mul_thresh";
   "s2s/gicp/translation_gradient_tolerance";
   "s2s/gicp/rotation_gradient_tolerance";
   "s2m/gicp/translation_gradient_tolerance";
   "s2m/gicp/rotation_gradient_tolerance";
   "stereo_tracking/detector/sift/contrast_threshold";
   "stereo_tracking/sparse_optical_flow/pyrlk/win_size";
   "stereo_tracking/sparse_optical_flow/pyrlk/max_level";
   "stereo_tracking/sparse_optical_flow/pyrlk/term_criteria/type";
   "stereo_tracking/sparse_optical_flow/pyrlk/term_criteria/max_count";
   "stereo_tracking/sparse_optical_flow/pyrlk/term_criteria/epsilon";
   "stereo_tracking/sparse_optical_flow/pyrlk/flags";
   "stereo_tracking/sparse_optical_flow/pyrlk/min_eig_threshold"].

(* what the documented keys say about the settings of a filter (statistical outlier removal left out: dead_keys) *)
Definition is_num (P : params) (k : string) (d q : Q) : Prop :=
  match P k with Some (VInt z) => q = inject_Z z | Some (VDouble r) => q = r | _ => q = d end.
Definition is_num3 (P : params) (pre : string) (names : list string) (v : Q * Q * Q) : Prop :=
  match names with
  | [a; b; c] => is_num P (pre ++ a)%string 0 (fst (fst v)) /\ is_num P (pre ++ b)%string 0 (snd (fst v)) /\ is_num P (pre ++ c)%string 0 (snd v)
  | _ => False
  end.
Definition as_documented (P : params) (o : op) : Prop :=
  match o with
  | OVoxel leaf minp => is_num P "voxel_grid_filter/leaf_size" (1#10) leaf /\ is_num P "voxel_grid_filter/minimum_points_number_per_voxel" 1 minp
  | OBody mn mx tr rot _ => is_num3 P "body_filter/min/" ["x"; "y"; "z"] mn /\ is_num3 P "body_filter/max/" ["x"; "y"; "z"] mx /\
                            is_num3 P "body_filter/translation/" ["x"; "y"; "z"] tr /\ is_num3 P "body_filter/rotation/" ["rx"; "ry"; "rz"] rot
  | ORange lo hi => is_num P "range_filter/min" 0 lo /\
                    match hi with Some h => forall d, is_num P "range_filter/max" d h
                                | None => forall q, P "range_filter/max" <> Some (VDouble q) end
  | ORand n seed => (0 <= n /\ 0 <= seed /\
                     (forall z, P "random_sample_filter/sample_size" = Some (VInt z) -> n = z) /\
                     (forall z, P "random_sample_filter/random_seed" = Some (VInt z) -> seed = z))%Z
  | _ => True
  end.
