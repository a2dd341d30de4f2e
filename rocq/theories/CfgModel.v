(* Parameters, configuration names and the wiring of the lidar pipeline.                             *)
From Verif Require Import Base NetModel.
From Coq Require Import QArith Qround Ascii.
Open Scope Z_scope.
Open Scope string_scope.
Open Scope list_scope.

(* ------------------------------------------------------------------------------------------------ *)
(* The parameter server: values by key (relative to the namespace "serpent").                        *)
Inductive pval := VBool (b : bool) | VInt (z : Z) | VDouble (q : Q) | VStr (s : string) | VList (l : list pval).
Definition params := string -> option pval.

(* roscpp Param::getParam(bool): only a boolean is taken, otherwise the default *)
Definition p_bool (P : params) (k : string) (d : bool) : bool :=
  match P k with Some (VBool b) => b | _ => d end.
(* roscpp: a double is rounded (fmod(d,1) < 0.5 ? floor : ceil; fmod takes the sign of d)            *)
Definition q_int (q : Q) : Z := if Qle_bool 0 q then Qfloor (q + (1#2)) else Qfloor q.
Definition p_int (P : params) (k : string) (d : Z) : Z :=
  match P k with Some (VInt z) => z | Some (VDouble q) => q_int q | _ => d end.
(* getParam(double), getParam(float): an int is converted *)
Definition p_num (P : params) (k : string) (d : Q) : Q :=
  match P k with Some (VInt z) => inject_Z z | Some (VDouble q) => q | _ => d end.
Definition p_str (P : params) (k : string) (d : string) : string :=
  match P k with Some (VStr s) => s | _ => d end.
(* getParam(std::vector<int>): taken if every element converts (int, double, bool) *)
Definition v_int (v : pval) : option Z :=
  match v with VInt z => Some z | VDouble q => Some (q_int q) | VBool b => Some (if b then 1 else 0) | _ => None end.
Fixpoint v_ints (l : list pval) : option (list Z) :=
  match l with
  | [] => Some []
  | v :: l' => match v_int v, v_ints l' with Some z, Some r => Some (z :: r) | _, _ => None end
  end.
Definition p_ints (P : params) (k : string) (d : list Z) : list Z :=
  match P k with Some (VList l) => match v_ints l with Some r => r | None => d end | _ => d end.

(* ------------------------------------------------------------------------------------------------ *)
(* Names of configuration options                                                                     *)
(* registration_covariance.hpp / .cpp:38-118 *)
Inductive cov_method := CM_CONSTANT | CM_CENSI | CM_LLS.
Inductive cov_model := P2P_LIN | P2P_NONLIN | P2PL_LIN | P2PL_NONLIN.
Inductive point_method := PM_CONSTANT | PM_VOXEL_SIZE | PM_RANGE | PM_RANGE_BIAS.

(* registration_covariance.cpp:38-47 *)
Definition to_cov_method (s : string) : res cov_method :=
  if String.eqb s "CONSTANT" then Ok CM_CONSTANT
  else if String.eqb s "CENSI" then Ok CM_CENSI
  else if String.eqb s "LLS" then Ok CM_LLS
  else Throw.
(* registration_covariance.cpp:49-60 *)
Definition to_cov_model (s : string) : res cov_model :=
  if String.eqb s "POINT_TO_POINT_LINEARISED" then Ok P2P_LIN
  else if String.eqb s "POINT_TO_POINT_NONLINEAR" then Ok P2P_NONLIN
  else if String.eqb s "POINT_TO_PLANE_LINEARISED" then Ok P2PL_LIN
  else if String.eqb s "POINT_TO_PLANE_NONLINEAR" then Ok P2PL_NONLIN
  else Throw.
(* registration_covariance.cpp:62-73 *)
Definition to_point_method (s : string) : res point_method :=
  if String.eqb s "CONSTANT" then Ok PM_CONSTANT
  else if String.eqb s "VOXEL_SIZE" then Ok PM_VOXEL_SIZE
  else if String.eqb s "RANGE" then Ok PM_RANGE
  else if String.eqb s "RANGE_BIAS" then Ok PM_RANGE_BIAS
  else Throw.
(* registration_covariance.cpp:75-118 *)
Definition cov_method_str (m : cov_method) : string :=
  match m with CM_CONSTANT => "CONSTANT" | CM_CENSI => "CENSI" | CM_LLS => "LLS" end.
Definition cov_model_str (m : cov_model) : string :=
  match m with
  | P2P_LIN => "POINT_TO_POINT_LINEARISED" | P2P_NONLIN => "POINT_TO_POINT_NONLINEAR"
  | P2PL_LIN => "POINT_TO_PLANE_LINEARISED" | P2PL_NONLIN => "POINT_TO_PLANE_NONLINEAR"
  end.
Definition point_method_str (m : point_method) : string :=
  match m with
  | PM_CONSTANT => "CONSTANT" | PM_VOXEL_SIZE => "VOXEL_SIZE" | PM_RANGE => "RANGE" | PM_RANGE_BIAS => "RANGE_BIAS"
  end.
(* registration_covariance.cpp:5-32 *)
Definition requires_unit (c : cov_method) (p : point_method) : bool :=
  match c with CM_CONSTANT => false | CM_CENSI => true | CM_LLS => true end &&
  match p with PM_CONSTANT => false | PM_VOXEL_SIZE => false | PM_RANGE => true | PM_RANGE_BIAS => true end.
(* registration_covariance.cpp:34-36 (the point method is parsed whatever the method is) *)
Definition requires_unit_s (c p : string) : res bool :=
  rbind (to_cov_method c) (fun m => rbind (to_point_method p) (fun q => Ok (requires_unit m q))).

(* registration_methods.cpp:5-46 (enumerations of fast_gicp) *)
Inductive reg_method := RM_NONE | RM_MIN_EIG | RM_NORMALIZED_MIN_EIG | RM_PLANE | RM_FROBENIUS.
Definition to_reg_method (s : string) : res reg_method :=
  if String.eqb s "NONE" then Ok RM_NONE
  else if String.eqb s "MIN_EIG" then Ok RM_MIN_EIG
  else if String.eqb s "NORMALIZED_MIN_EIG" then Ok RM_NORMALIZED_MIN_EIG
  else if String.eqb s "PLANE" then Ok RM_PLANE
  else if String.eqb s "FROBENIUS" then Ok RM_FROBENIUS
  else Throw.
Inductive voxel_mode := VM_ADDITIVE | VM_ADDITIVE_WEIGHTED | VM_MULTIPLICATIVE.
Definition to_voxel_mode (s : string) : res voxel_mode :=
  if String.eqb s "ADDITIVE" then Ok VM_ADDITIVE
  else if String.eqb s "ADDITIVE_WEIGHTED" then Ok VM_ADDITIVE_WEIGHTED
  else if String.eqb s "MULTIPLICATIVE" then Ok VM_MULTIPLICATIVE
  else Throw.
Inductive neighbour := NS_DIRECT27 | NS_DIRECT7 | NS_DIRECT1 | NS_DIRECT_RADIUS.
Definition to_neighbour (s : string) : res neighbour :=
  if String.eqb s "DIRECT27" then Ok NS_DIRECT27
  else if String.eqb s "DIRECT7" then Ok NS_DIRECT7
  else if String.eqb s "DIRECT1" then Ok NS_DIRECT1
  else if String.eqb s "DIRECT_RADIUS" then Ok NS_DIRECT_RADIUS
  else Throw.

(* stereo_factor_finder.cpp:13-20, 22-43 (not used), 45-54, 56-65 *)
Inductive orb_score := HARRIS_SCORE | FAST_SCORE.
Definition to_orb_score (s : string) : res orb_score :=
  if String.eqb s "HARRIS_SCORE" then Ok HARRIS_SCORE
  else if String.eqb s "FAST_SCORE" then Ok FAST_SCORE
  else Throw.
Inductive norm_type := N_INF | N_L1 | N_L2 | N_L2SQR | N_HAMMING | N_HAMMING2 | N_TYPE_MASK | N_RELATIVE | N_MINMAX.
Definition to_norm_type (s : string) : res norm_type :=
  if String.eqb s "NORM_INF" then Ok N_INF
  else if String.eqb s "NORM_L1" then Ok N_L1
  else if String.eqb s "NORM_L2" then Ok N_L2
  else if String.eqb s "NORM_L2SQR" then Ok N_L2SQR
  else if String.eqb s "NORM_HAMMING" then Ok N_HAMMING
  else if String.eqb s "NORM_HAMMING2" then Ok N_HAMMING2
  else if String.eqb s "NORM_TYPE_MASK" then Ok N_TYPE_MASK
  else if String.eqb s "NORM_RELATIVE" then Ok N_RELATIVE
  else if String.eqb s "NORM_MINMAX" then Ok N_MINMAX
  else Throw.
(* cv::TermCriteria: COUNT = MAX_ITER = 1, EPS = 2 *)
Definition to_term_criteria (s : string) : res Z :=
  if String.eqb s "COUNT" || String.eqb s "MAX_ITER" then Ok 1
  else if String.eqb s "EPS" then Ok 2
  else if String.eqb s "COUNT+EPS" || String.eqb s "MAX_ITER+EPS" then Ok (1 + 2)
  else Throw.
Inductive fast_type := TYPE_5_8 | TYPE_7_12 | TYPE_9_16.
Definition to_fast_type (s : string) : res fast_type :=
  if String.eqb s "TYPE_5_8" then Ok TYPE_5_8
  else if String.eqb s "TYPE_7_12" then Ok TYPE_7_12
  else if String.eqb s "TYPE_9_16" then Ok TYPE_9_16
  else Throw.
(* stereo_keypoint_matcher.cpp:7-17 *)
Inductive match_filter := UNIDIRECTIONAL | BIDIRECTIONAL | RATIO_TEST.
Definition to_match_filter (s : string) : res match_filter :=
  if String.eqb s "UNIDIRECTIONAL" then Ok UNIDIRECTIONAL
  else if String.eqb s "BIDIRECTIONAL" then Ok BIDIRECTIONAL
  else if String.eqb s "RATIO_TEST" then Ok RATIO_TEST
  else Throw.
(* sensor_point_types.cpp:9-16 *)
Inductive sensor_type := OUSTER | CUSTOM.
Definition to_sensor_type (s : string) : res sensor_type :=
  if String.eqb s "OUSTER" then Ok OUSTER else if String.eqb s "CUSTOM" then Ok CUSTOM else Throw.
(* mapping-inl.hpp:16-24 *)
Inductive extraction := NEARBY | PAST.
Definition to_extraction (s : string) : res extraction :=
  if String.eqb s "NEARBY" then Ok NEARBY else if String.eqb s "PAST" then Ok PAST else Throw.
(* optimisation.cpp:42-49 *)
Inductive reweight := RW_BLOCK | RW_SCALAR.
Definition to_reweight (s : string) : res reweight :=
  if String.eqb s "BLOCK" then Ok RW_BLOCK else if String.eqb s "SCALAR" then Ok RW_SCALAR else Throw.

(* optimisation.cpp:187-237: the robust estimator of the stereo noise model.  A null shared_ptr results
   when no branch is taken (the chain of else-if has no final else); Robust::Create stores it.          *)
Inductive estimator := Cauchy | DCS | Fair | GemanMcClure | Huber | L2WithDeadZone | NullEst | Tukey | Welsch.
Record robust := Robust { rb_est : estimator; rb_par : option Q; rb_scheme : option reweight }.
Definition one_par (P : params) (e : estimator) (key : string) (par : string) (d : Q) : res (option robust) :=
  let c := p_num P ("stereo_factors/robust/" ++ key ++ "/" ++ par)%string d in
  rbind (to_reweight (p_str P ("stereo_factors/robust/" ++ key ++ "/reweight_scheme")%string "BLOCK"))
        (fun rw => Ok (Some (Robust e (Some c) (Some rw)))).
Definition robust_model (P : params) : res (option robust) :=
  let ty := p_str P "stereo_factors/robust/type" "huber" in
  if String.eqb ty "cauchy" then one_par P Cauchy "cauchy" "k" (1#10)
  else if String.eqb ty "dcs" then one_par P DCS "dcs" "c" 1
  else if String.eqb ty "fair" then one_par P Fair "fair" "c" (13998#10000)
  else if String.eqb ty "geman_mcclure" then one_par P GemanMcClure "geman_mcclure" "c" 1
  else if String.eqb ty "huber" then one_par P Huber "huber" "k" (1345#1000)
  else if String.eqb ty "l2_with_dead_zone" then one_par P L2WithDeadZone "l2_with_dead_zone" "k" 1
  else if String.eqb ty "null" then Ok (Some (Robust NullEst None None))
  else if String.eqb ty "tukey" then one_par P Tukey "tukey" "c" (46851#10000)
  else if String.eqb ty "welsch" then one_par P Welsch "welsch" "c" (29846#10000)
  else Ok None.

(* ------------------------------------------------------------------------------------------------ *)
(* Registration configuration, registration-inl.hpp:92-172                                            *)
Record reg_cfg := RegCfg {
  rc_method : cov_method;
  rc_const : option (Q * Q);           (* variances of the constant covariance: rotation, translation *)
  rc_model : option cov_model;
  rc_point : option point_method;
  rc_pvar : option Q;                  (* point_variance; not assigned for RANGE and RANGE_BIAS *)
  rc_rvar : option Q; rc_bvar : option Q
}.
Definition sq (q : Q) : Q := q * q.
Definition reg_config (P : params) : res reg_cfg :=
  rbind (to_cov_method (p_str P "registration_covariance/method" "CENSI")) (fun m =>
  match m with
  | CM_CONSTANT =>
      Ok (RegCfg m (Some (sq (p_num P "registration_covariance/constant/rotation" (174533#10000000)),
                          sq (p_num P "registration_covariance/constant/translation" (1#100)))) None None None None None)
  | _ =>
      rbind (to_cov_model (p_str P "registration_covariance/model" "POINT_TO_PLANE_LINEARISED")) (fun md =>
      rbind (to_point_method (p_str P "registration_covariance/point_covariance/method" "RANGE")) (fun pm =>
      let range bv :=
        match m with
        | CM_LLS => Throw
        | _ => let rn := p_num P "registration_covariance/point_covariance/range_noise" (5#100) in
               if Qle_bool rn 0 then Throw else Ok (RegCfg m None (Some md) (Some pm) None (Some (sq rn)) bv)
        end in
      match pm with
      | PM_CONSTANT => Ok (RegCfg m None (Some md) (Some pm)
                            (Some (sq (p_num P "registration_covariance/point_covariance/constant" (5#100)))) None None)
      | PM_VOXEL_SIZE =>
          if negb (p_bool P "voxel_grid_filter/enabled" true) then Throw
          else Ok (RegCfg m None (Some md) (Some pm) (Some (sq (p_num P "voxel_grid_filter/leaf_size" (1#10)))) None None)
      | PM_RANGE_BIAS =>
          match m with
          | CM_LLS => Throw
          | _ => let bn := p_num P "registration_covariance/point_covariance/range_bias_noise" (2#100) in
                 if Qle_bool bn 0 then Throw else range (Some (sq bn))           (* falls through *)
          end
      | PM_RANGE => range None
      end))
  end).

(* ------------------------------------------------------------------------------------------------ *)
(* Registration methods, registration_methods-inl.hpp:8-123; `pre` is "s2s/" or "s2m/".               *)
Record base_cfg := BaseCfg {
  bc_iter : Z; bc_ransac : Z; bc_rthr : Q; bc_dist : option Q (* None: numeric_limits<double>::max() *); bc_teps : Q; bc_reps : Q; bc_feps : Q }.
Definition p_optnum (P : params) (k : string) : option Q :=
  match P k with Some (VInt z) => Some (inject_Z z) | Some (VDouble q) => Some q | _ => None end.
Definition base_config (P : params) (pre : string) : base_cfg :=
  BaseCfg (p_int P (pre ++ "base/maximum_iterations")%string 10)
          (p_int P (pre ++ "base/ransac_iterations")%string 0)
          (p_num P (pre ++ "base/ransac_outlier_rejection_threshold")%string (5#100))
          (p_optnum P (pre ++ "base/max_correspondence_distance")%string)
          (p_num P (pre ++ "base/transformation_epsilon")%string 0)
          (p_num P (pre ++ "base/transformation_rotation_epsilon")%string 0)
          (p_num P (pre ++ "base/euclidean_fitness_epsilon")%string 0).
Record lsq_cfg := LsqCfg { lc_base : base_cfg; lc_rot : Q; lc_lambda : Q; lc_debug : bool }.
Definition lsq_config (P : params) (pre : string) : lsq_cfg :=
  LsqCfg (base_config P pre) (p_num P (pre ++ "lsq/rotation_epsilon")%string (2#1000))
         (p_num P (pre ++ "lsq/initial_lambda_factor")%string (1#1000000000)) (p_bool P (pre ++ "lsq/debug_print")%string false).
Inductive matcher :=
| Icp (b : base_cfg) (reciprocal : bool)
| Gicp (b : base_cfg) (reciprocal : bool) (rot : Q) (random : Z) (iter : Z)
| FastGicp (l : lsq_cfg) (threads random : Z) (m : reg_method)
| FastGicpSt (l : lsq_cfg) (threads random : Z) (m : reg_method)
| FastVgicp (l : lsq_cfg) (threads random : Z) (m : reg_method) (res : Q) (mode : voxel_mode) (ns : neighbour)
| Ndt (b : base_cfg) (res step outlier : Q).
Definition matcher_config (P : params) (pre : string) : res matcher :=
  let m := p_str P (pre ++ "method")%string "fast_gicp" in
  let b := base_config P pre in
  let l := lsq_config P pre in
  let rec := p_bool P (pre ++ "icp/use_reciprocal_correspondences")%string false in
  let th := p_int P (pre ++ "fast_gicp/num_threads")%string 4 in
  let cr := p_int P (pre ++ "fast_gicp/correspondence_randomness")%string 20 in
  let rm := to_reg_method (p_str P (pre ++ "fast_gicp/regularization_method")%string "PLANE") in
  if String.eqb m "icp" then Ok (Icp b rec)
  else if String.eqb m "gicp" then
    Ok (Gicp b rec (p_num P (pre ++ "gicp/rotation_epsilon")%string (2#1000))
             (p_int P (pre ++ "gicp/correspondence_randomness")%string 20)
             (p_int P (pre ++ "gicp/maximum_optimizer_iterations")%string 20))
  else if String.eqb m "fast_gicp" then rbind rm (fun x => Ok (FastGicp l th cr x))
  else if String.eqb m "fast_gicp_st" then rbind rm (fun x => Ok (FastGicpSt l 1 cr x))
  else if String.eqb m "fast_vgicp" then
    rbind rm (fun x =>
    rbind (to_voxel_mode (p_str P (pre ++ "fast_vgicp/voxel_accumulation_mode")%string "ADDITIVE")) (fun vm =>
    rbind (to_neighbour (p_str P (pre ++ "fast_vgicp/neighbor_search_method")%string "DIRECT1")) (fun ns =>
    Ok (FastVgicp l th cr x (p_num P (pre ++ "fast_vgicp/resolution")%string 1) vm ns))))
  else if String.eqb m "ndt" then
    Ok (Ndt (BaseCfg (p_int P (pre ++ "base/maximum_iterations")%string 35) (bc_ransac b) (bc_rthr b) (bc_dist b) (bc_teps b) (bc_reps b) (bc_feps b))
            (p_num P (pre ++ "ndt/resolution")%string 1) (p_num P (pre ++ "ndt/step_size")%string (1#10))
            (p_num P (pre ++ "ndt/outlier_ratio")%string (55#100)))
  else Throw.
(* registration-inl.hpp:84-92 *)
Definition matchers (P : params) : res (matcher * option matcher) :=
  rbind (matcher_config P "s2s/") (fun a =>
  if p_bool P "s2m/enabled" true then rbind (matcher_config P "s2m/") (fun b => Ok (a, Some b)) else Ok (a, None)).

(* ------------------------------------------------------------------------------------------------ *)
(* Point cloud filters, pointcloud_filter.cpp:10-102                                                  *)
Inductive op :=
| OVoxel (leaf minp : Q)
| OBody (mn mx tr rot : Q * Q * Q) (negative : bool)
| ORange (lo : Q) (hi : option Q)                        (* None: numeric_limits<double>::max() *)
| OSor (mean_k : Z) (mul : Q)
| ORand (size seed : Z)
| OUnit
| ONormal (threads : Z) (viewpoint : Q * Q * Q) (knn : option Z) (radius : option Q).

(* NodeHandle("serpent")::resolveName: a global name stays, others are put under the namespace        *)
Definition resolve (s : string) : string :=
  match s with
  | String c _ => if Ascii.eqb c "/"%char then s else ("/serpent/" ++ s)%string
  | EmptyString => "/serpent/"%string
  end.
Definition final_topic : string := "filter/filtered_pointcloud".     (* :11 *)

Definition en_voxel P := p_bool P "voxel_grid_filter/enabled" true.       (* :12-16 *)
Definition en_body P := p_bool P "body_filter/enabled" false.
Definition en_range P := p_bool P "range_filter/enabled" true.
Definition en_sor P := p_bool P "statistical_outlier_removal/enabled" false.
Definition en_rand P := p_bool P "random_sample_filter/enabled" false.

Definition p_num3 (P : params) (a b c : string) : Q * Q * Q := (p_num P a 0, p_num P b 0, p_num P c 0).
Definition mk (input : string) (o : op) (output : string) : nd op := Nd op (resolve input) o (resolve output).

(* The modules the constructor creates; each stage subscribes to `input_topic`, which it replaces by the
   resolved name of its publisher (getTopic).  CropBox keeps its default negative = false: setNegative
   is never called.                                                                                    *)
Definition filter_ctor (P : params) (input : string) : res (list (nd op)) :=
  (* :25-38 *)
  let out1 := if en_rand P || en_sor P || en_range P || en_body P then "filter/voxel_filtered_pointcloud" else final_topic in
  let n1 := if en_voxel P
            then [mk input (OVoxel (p_num P "voxel_grid_filter/leaf_size" (1#10))
                                   (p_num P "voxel_grid_filter/minimum_points_number_per_voxel" 1)) out1]
            else [] in
  let in2 := if en_voxel P then resolve out1 else input in
  (* :40-56 *)
  let out2 := if en_rand P || en_sor P || en_range P then "filter/body_filtered_pointcloud" else final_topic in
  let n2 := if en_body P
            then [mk in2 (OBody (p_num3 P "body_filter/min/x" "body_filter/min/y" "body_filter/min/z")
                                (p_num3 P "body_filter/max/x" "body_filter/max/y" "body_filter/max/z")
                                (p_num3 P "body_filter/translation/x" "body_filter/translation/y" "body_filter/translation/z")
                                (p_num3 P "body_filter/rotation/rx" "body_filter/rotation/ry" "body_filter/rotation/rz") false) out2]
            else [] in
  let in3 := if en_body P then resolve out2 else in2 in
  (* :58-68 *)
  let out3 := if en_rand P || en_sor P then "filter/range_filtered_pointcloud" else final_topic in
  let n3 := if en_range P
            then [mk in3 (ORange (p_num P "range_filter/min" 0) (p_optnum P "range_filter/max")) out3]
            else [] in
  let in4 := if en_range P then resolve out3 else in3 in
  (* :70-79: the settings are read from statistical_outlier_removal_filter *)
  let out4 := if en_rand P then "filter/sor_filtered_pointcloud" else final_topic in
  let n4 := if en_sor P
            then [mk in4 (OSor (p_int P "statistical_outlier_removal_filter/mean_k" 1)
                               (p_num P "statistical_outlier_removal_filter/stddev_mul_thresh" 0)) out4]
            else [] in
  let in5 := if en_sor P then resolve out4 else in4 in
  (* :81-99 *)
  if en_rand P then
    let size := p_int P "random_sample_filter/sample_size" 3000 in
    let seed := p_int P "random_sample_filter/random_seed" 0 in
    if (size <? 0)%Z then Throw
    else if (seed <? 0)%Z then Throw
    else Ok (n1 ++ n2 ++ n3 ++ n4 ++ [mk in5 (ORand size seed) final_topic])
  else Ok (n1 ++ n2 ++ n3 ++ n4).

(* pointcloud_normal_estimation-inl.hpp:14-38: modules are created before the method is parsed, which
   throws for an unknown name *)
Definition normal_ctor (P : params) (input : string) : res (list (nd op)) :=
  let m := p_str P "normal_estimation/method" "knn" in
  let t := p_int P "normal_estimation/threads" 1 in
  let v := p_num3 P "normal_estimation/viewpoint/x" "normal_estimation/viewpoint/y" "normal_estimation/viewpoint/z" in
  if String.eqb m "knn" then Ok [mk input (ONormal t v (Some (p_int P "normal_estimation/k" 30)) None) "normal_estimation/pointcloud"]
  else if String.eqb m "radius" then Ok [mk input (ONormal t v None (Some (p_num P "normal_estimation/radius" 1))) "normal_estimation/pointcloud"]
  else Throw.

(* node.cpp:34-66, frontend_node.cpp:22-52: the modules from the deskewed cloud to the cloud with normals,
   and whether the modules downstream are built for points with unit vectors.  None: no lidar factors.   *)
Definition lidar_nodes (P : params) : res (option (list (nd op) * bool)) :=
  if p_bool P "optimisation/factors/registration" true then
    let voxel := p_bool P "voxel_grid_filter/enabled" true in
    rbind (requires_unit_s (p_str P "registration_covariance/method" "CENSI")
                           (p_str P "registration_covariance/point_covariance/method" "RANGE")) (fun unit =>
    let filter_enabled := voxel || p_bool P "body_filter/enabled" false || p_bool P "range_filter/enabled" true ||
                          p_bool P "statistical_outlier_removal/enabled" false || p_bool P "random_sample_filter/enabled" false in
    let in0 := resolve "frontend/deskewed_pointcloud" in
    rbind (if filter_enabled then filter_ctor P in0 else Ok []) (fun fs =>
    let in1 := if filter_enabled then final_topic else in0 in
    let us := if unit then [mk in1 OUnit "add_unit_vectors/pointcloud"] else [] in
    let in2 := if unit then resolve "add_unit_vectors/pointcloud" else in1 in
    rbind (normal_ctor P in2) (fun ns => Ok (Some (fs ++ us ++ ns, unit)))))
  else Ok None.

(* ------------------------------------------------------------------------------------------------ *)
(* What a stage does to a cloud.  Points abstract; the search structures of PCL are oracles.            *)
Section Apply.
  Variable P : Type.                                      (* points with all their fields *)
  Variable inside : Q * Q * Q -> Q * Q * Q -> Q * Q * Q -> Q * Q * Q -> P -> bool.   (* in the (moved) box *)
  Variable range : P -> option Q.                         (* field "range"; None: not finite *)
  Record cloud := Cloud { has_range : bool; pts : list P }.
  Variable voxel : Q -> Q -> list P -> list P.
  Variable sor : Z -> Q -> list P -> list P.
  Variable sample : Z -> Z -> list P -> list P.
  Variable unit : cloud -> cloud.
  Variable normals : cloud -> cloud.
  (* pcl::CropBox: keeps the points inside, with negative those outside *)
  Definition crop (ins : P -> bool) (neg : bool) (l : list P) : list P := filter (fun p => xorb neg (ins p)) l.
  (* pcl::PassThrough: keeps lo <= v <= hi, drops values that are not finite *)
  Definition pass (lo : Q) (hi : option Q) (l : list P) : list P :=
    filter (fun p => match range p with
                     | Some v => Qle_bool lo v && match hi with Some h => Qle_bool v h | None => true end
                     | None => false end) l.
  (* pointcloud_filter.cpp:109-137, pointcloud_add_unit_vectors.cpp:20-26, normal estimation callback *)
  Definition apply_op (o : op) (c : cloud) : res cloud :=
    match o with
    | OVoxel leaf minp => Ok (Cloud (has_range c) (voxel leaf minp (pts c)))
    | OBody mn mx tr rot neg => Ok (Cloud (has_range c) (crop (inside mn mx tr rot) neg (pts c)))
    | ORange lo hi => if negb (has_range c) then Throw else Ok (Cloud true (pass lo hi (pts c)))
    | OSor k m => Ok (Cloud (has_range c) (sor k m (pts c)))
    | ORand n s => Ok (Cloud (has_range c) (sample n s (pts c)))
    | OUnit => Ok (unit c)
    | ONormal _ _ _ _ => Ok (normals c)
    end.
End Apply.

(* ------------------------------------------------------------------------------------------------ *)
(* Stereo front end, stereo_factor_finder.cpp:70-113, 208-321                                          *)
Inductive detector :=
| DFast (threshold : Z) (nonmax : bool) (ty : fast_type)
| DGftt (max_corners : Z) (quality min_dist : Q) (block : Z) (harris : bool) (k : Q)
| DOrb (n : Z) (scale : Q) (levels edge first wta : Z) (score : orb_score) (patch fast : Z)
| DSift (n layers : Z) (contrast edge sigma : Q).
Record flow := Flow { fl_w : Z; fl_h : Z; fl_level : Z; fl_type : Z; fl_count : Z; fl_eps : Q; fl_flags : Z; fl_eig : Q }.
Inductive cost := SAD | SSD | ZMSAD | LSSAD | NNCC.
Record stereo_cfg := StereoCfg {
  sc_det : detector; sc_filter : Q; sc_flow : flow; sc_w : Z; sc_h : Z; sc_cost : cost; sc_vert : Q;
  sc_mf : match_filter; sc_ratio : Q; sc_thresh : Q; sc_roi : Z * Z * Z * Z; sc_newdist : Q
}.
Definition det_config (P : params) : res detector :=
  let ty := p_str P "stereo_tracking/detector/type" "ORB" in
  if String.eqb ty "FAST" then
    rbind (to_fast_type (p_str P "stereo_tracking/detector/fast/type" "TYPE_9_16")) (fun t =>
    Ok (DFast (p_int P "stereo_tracking/detector/fast/threshold" 10)
              (p_bool P "stereo_tracking/detector/fast/nonmax_suppression" true) t))
  else if String.eqb ty "GFTT" then
    Ok (DGftt (p_int P "stereo_tracking/detector/gftt/max_corners" 1000)
              (p_num P "stereo_tracking/detector/gftt/quality_level" (1#100))
              (p_num P "stereo_tracking/detector/gftt/min_distance" 1)
              (p_int P "stereo_tracking/detector/gftt/block_size" 3)
              (p_bool P "stereo_tracking/detector/gftt/use_harris_detector" false)
              (p_num P "stereo_tracking/detector/gftt/k" (4#100)))
  else if String.eqb ty "ORB" then
    rbind (to_orb_score (p_str P "stereo_tracking/detector/orb/score_type" "HARRIS_SCORE")) (fun sc =>
    Ok (DOrb (p_int P "stereo_tracking/detector/orb/num_features" 500)
             (p_num P "stereo_tracking/detector/orb/scale_factor" (12#10))
             (p_int P "stereo_tracking/detector/orb/num_levels" 8)
             (p_int P "stereo_tracking/detector/orb/edge_threshold" 31)
             (p_int P "stereo_tracking/detector/orb/first_level" 0)
             (p_int P "stereo_tracking/detector/orb/wta_k" 2) sc
             (p_int P "stereo_tracking/detector/orb/patch_size" 31)
             (p_int P "stereo_tracking/detector/orb/fast_threshold" 20)))
  else if String.eqb ty "SIFT" then                       (* OpenCV >= 4.4 *)
    Ok (DSift (p_int P "stereo_tracking/detector/sift/num_features" 10)
              (p_int P "stereo_tracking/detector/sift/num_octave_layers" 3)
              (p_num P "stereo_tracking/detector/sift/constrast_threshold" (4#100))
              (p_num P "stereo_tracking/detector/sift/edge_threshold" 10)
              (p_num P "stereo_tracking/detector/sift/sigma" (16#10)))
  else Throw.
Definition flow_config (P : params) : res flow :=
  let ty := p_str P "stereo_tracking/sparse_optical_flow/type" "PyrLK" in
  if String.eqb ty "PyrLK" then
    match p_ints P "stereo_tracking/sparse_optical_flow/win_size" [21; 21] with
    | w :: h :: _ =>
        rbind (to_term_criteria (p_str P "stereo_tracking/sparse_optical_flow/term_criteria/type" "COUNT+EPS")) (fun tc =>
        Ok (Flow w h (p_int P "stereo_tracking/sparse_optical_flow/max_level" 3) tc
                 (p_int P "stereo_tracking/sparse_optical_flow/term_criteria/max_count" 30)
                 (p_num P "stereo_tracking/sparse_optical_flow/term_criteria/epsilon" (1#100))
                 (p_int P "stereo_tracking/sparse_optical_flow/flags" 0)
                 (p_num P "stereo_tracking/sparse_optical_flow/min_eig_threshold" 0)))
    | _ => Throw                                          (* vector::at *)
    end
  else Throw.
Definition cost_config (P : params) : res cost :=
  let c := p_str P "stereo_tracking/stereo_keypoint_matcher/cost_function" "SAD" in
  if String.eqb c "SAD" then Ok SAD
  else if String.eqb c "SSD" then Ok SSD
  else if String.eqb c "ZMSAD" then Ok ZMSAD
  else if String.eqb c "LSSAD" then Ok LSSAD
  else if String.eqb c "NNCC" then Ok NNCC
  else Throw.
Definition stereo_config (P : params) : res stereo_cfg :=
  rbind (det_config P) (fun det =>
  rbind (flow_config P) (fun fl =>
  rbind (to_match_filter (p_str P "stereo_tracking/stereo_keypoint_matcher/matching_filter" "RATIO_TEST")) (fun mf =>
  rbind (cost_config P) (fun co =>
  Ok (StereoCfg det (p_num P "stereo_tracking/stereo_match_filter/vertical_pixel_threshold" 1) fl
        (p_int P "stereo_tracking/stereo_keypoint_matcher/window_size/width" 3)
        (p_int P "stereo_tracking/stereo_keypoint_matcher/window_size/height" 3) co
        (p_num P "stereo_tracking/stereo_keypoint_matcher/vertical_pixel_threshold" 1) mf
        (p_num P "stereo_tracking/stereo_keypoint_matcher/ratio" (1#2))
        (p_num P "stereo_tracking/stereo_keypoint_matcher/cost_threshold" 1)
        (if p_bool P "stereo_mask/enabled" false
         then (p_int P "stereo_mask/top_left_x" 0, p_int P "stereo_mask/top_left_y" 0,
               p_int P "stereo_mask/width" 0, p_int P "stereo_mask/height" 0)
         else (0, 0, 0, 0))
        (p_num P "stereo_tracking/new_feature_dist_threshold" 5)))))).

(* everything above, as the node reads it at start *)
Record config := Config {
  cf_nodes : res (option (list (nd op) * bool)); cf_reg : res reg_cfg; cf_match : res (matcher * option matcher);
  cf_stereo : res stereo_cfg; cf_robust : res (option robust) }.
Definition configure (P : params) : config :=
  Config (lidar_nodes P) (reg_config P) (matchers P) (stereo_config P) (robust_model P).
