(* Start-up of the nodes and the wiring of their topics.

   Abbreviations for /repo/serpent: FE = src/front_end/frontend.cpp, OP = src/back_end/optimisation.cpp,
   PF = src/front_end/lidar/pointcloud_formatter.cpp, RG = include/serpent/front_end/lidar/registration-inl.hpp,
   MP = include/serpent/mapping/mapping-inl.hpp, SF = src/front_end/stereo/stereo_factor_finder.cpp,
   UT = src/utils/utilities.cpp, BT = /repo/eigen_ros/src/body_frames_tf.cpp.

   A constructor either throws or leaves a module: the topics it publishes and subscribes to, with the message
   type on the wire, and the services it offers.  Simplified: image_transport also offers the same image under
   plugin specific names derived from the topic, these are left out; queue sizes and latching are left out; a
   parameter is taken to have the same value for every module (the parameter server does not change meanwhile)
   and so has a transform of tf (`look`).  Every module asks for body_to_frame without a time, i.e. time 0.    *)
From Coq Require Import ZArith QArith List Bool String.
From Verif Require Import Base NetModel CfgModel.
From Verif Require StModel BfModel Geo.
Import ListNotations.
Open Scope Z_scope.
Open Scope string_scope.
Open Scope list_scope.

(* the ROS message types of the topics (a pcl::PCLPointCloud2 or pcl::PointCloud goes as sensor_msgs/PointCloud2) *)
Inductive msg :=
| Imu | ImuArray | ImuBiases | Odometry | PoseCov | PointCloud2 | Image | CameraInfo | FluidPressure
| TransformStamped | Path | StereoFeatures | StereoStatistics | PoseGraph.
Record port := Port { topic : string; kind : msg }.
(* m_unit: the template argument of a module built for one point type, true for points with unit vectors *)
Record module := Module { m_name : string; m_pubs : list port; m_subs : list port; m_srvs : list string; m_unit : option bool }.
(* NodeHandle nh("serpent"): relative names *)
Definition at_ (t : string) (k : msg) : port := Port (resolve t) k.
Definition when {A} (b : bool) (l : list A) : list A := if b then l else [].
Definition demand (b : bool) : res unit := if b then Ok tt else Throw.

Section Start.
Variable look : string -> string -> Z -> res Geo.iso.                  (* tf *)
(* the constructors of gtsam's mEstimators may refuse their parameter *)
Variable estimator_ok : robust -> bool.
Variable P : params.
Variable frames_cfg : BfModel.xv.                                      (* the parameter body_frames *)

(* body_frames("serpent"): every module reads the parameter again *)
Definition frames : res BfModel.frames := BfModel.load look frames_cfg.
Definition place (f : string) : res Geo.iso :=
  rbind frames (fun b => BfModel.body_to_frame look b f 0).

(* the switches read by several modules *)
Definition reg_on : bool := p_bool P "optimisation/factors/registration" true.
Definition stereo_on : bool := p_bool P "optimisation/factors/stereo" true.
Definition baro_on : bool := p_bool P "optimisation/factors/barometer" true.

(* UT 9-13 and 91-101: gravity has a positive norm and the covariances, squares of the parameters times the
   identity, have a non-zero diagonal *)
Definition nonzero (q : Q) : bool := negb (Qeq_bool q 0).
Definition preintegration_ok : bool :=
  nonzero (p_num P "gravity" (981#100)) && nonzero (p_num P "imu/noise/accelerometer" (1#1000)) &&
  nonzero (p_num P "imu/noise/gyroscope" (1#1000)) && nonzero (p_num P "imu/noise/integration" (1#1000)).

(* FE 34-142 *)
Definition frontend : res module :=
  rbind frames (fun b =>
  rbind (demand (BfModel.has_frame b "base_link")) (fun _ =>
  rbind (demand (if stereo_on then p_bool P "mdc/translation" true && p_bool P "mdc/rotation" true else true)) (fun _ =>
  rbind (demand (if p_bool P "imu/noise/overwrite" false then preintegration_ok else true)) (fun _ =>
  rbind (BfModel.body_to_frame look b "imu" 0) (fun _ =>
  rbind (demand (if p_bool P "barometer/noise/overwrite" false then negb (Qle_bool (sq (p_num P "barometer/noise/barometer" (1#100))) 0) else true)) (fun _ =>
  Ok (Module "Frontend"
    ([at_ "frontend/deskewed_pointcloud" PointCloud2; at_ "frontend/imu_s2s" ImuArray; at_ "frontend/initial_odometry" Odometry;
      at_ "output/odometry" Odometry; at_ "output/pose" PoseCov]
     ++ when stereo_on [at_ "stereo/left/image" Image; at_ "stereo/right/image" Image;
                        at_ "stereo/left/camera_info" CameraInfo; at_ "stereo/right/camera_info" CameraInfo]
     ++ when baro_on [at_ "frontend/barometer" FluidPressure])
    ([at_ "input/imu" Imu; at_ "optimisation/imu_biases" ImuBiases; at_ "optimisation/odometry" Odometry;
      at_ "formatter/formatted_pointcloud" PointCloud2]
     ++ when stereo_on [at_ "input/stereo/left/image" Image; at_ "input/stereo/right/image" Image;
                        at_ "input/stereo/left/camera_info" CameraInfo; at_ "input/stereo/right/camera_info" CameraInfo]
     ++ when baro_on [at_ "input/barometer" FluidPressure])
    [] None))))))).

(* OP 187-240: with robust noise disabled nothing is checked; an unknown type leaves a null estimator *)
Definition robust_ok : res unit :=
  if p_bool P "stereo_factors/robust/enabled" true
  then rbind (robust_model P) (fun r => demand (match r with Some e => estimator_ok e | None => true end))
  else Ok tt.
(* OP 51-262; the string translators of gtsam (factorization, adaptation mode) fall back to a default *)
Definition optimisation : res module :=
  rbind frames (fun b =>
  rbind (BfModel.body_to_frame look b "imu" 0) (fun _ =>
  let opt := p_str P "isam2/optimization" "GaussNewton" in
  rbind (demand (String.eqb opt "GaussNewton" || String.eqb opt "Dogleg")) (fun _ =>
  rbind (if stereo_on
         then rbind (BfModel.body_to_frame look b (p_str P "stereo_factors/left_cam_frame" "stereo") 0) (fun _ => robust_ok)
         else Ok tt) (fun _ =>
  rbind (demand (if baro_on then nonzero (p_num P "barometer/noise/barometer_bias" (1#1000000)) else true)) (fun _ =>
  rbind (demand (if p_bool P "optimisation/marginalisation/enabled" false then (0 <=? p_int P "optimisation/marginalisation/window_size" 100)%Z else true)) (fun _ =>
  Ok (Module "Optimisation"
    ([at_ "optimisation/imu_biases" ImuBiases; at_ "optimisation/imu_transform" TransformStamped; at_ "optimisation/odometry" Odometry;
      at_ "output/path" Path; at_ "optimisation/path_changes" Path]
     ++ when (p_bool P "debug/optimisation/publish_stereo_points" false) [at_ "debug/stereo_points" PointCloud2])
    ([at_ "frontend/imu_s2s" ImuArray; at_ "frontend/initial_odometry" Odometry]
     ++ when reg_on [at_ "registration/transform" PoseCov]
     ++ when stereo_on [at_ "stereo/features" StereoFeatures]
     ++ when baro_on [at_ "frontend/barometer" FluidPressure])
    [] None))))))).

(* PF 10-25 *)
Definition formatter : res module :=
  rbind frames (fun _ =>
  rbind (to_sensor_type (p_str P "pointcloud_type" "OUSTER")) (fun _ =>
  Ok (Module "PointcloudFormatter" [at_ "formatter/formatted_pointcloud" PointCloud2] [at_ "input/pointcloud" PointCloud2] [] None))).

(* one stage of the lidar pipeline (CfgModel.lidar_nodes) as a module; normal estimation is a template *)
Definition stage_name (o : op) : string :=
  match o with OVoxel _ _ => "VoxelGrid" | OBody _ _ _ _ _ => "CropBox" | ORange _ _ => "RangeFilter" | OSor _ _ => "StatisticalOutlierRemoval"
  | ORand _ _ => "RandomSample" | OUnit => "PointcloudAddUnitVectors" | ONormal _ _ _ _ => "PointcloudNormalEstimation" end.
Definition stage (unit : bool) (n : nd op) : module :=
  Module (stage_name (n_op op n)) [Port (n_pub op n) PointCloud2] [Port (n_sub op n) PointCloud2] []
         (match n_op op n with ONormal _ _ _ _ => Some unit | _ => None end).

(* MP 41-92 *)
Definition mapping (unit : bool) : res module :=
  rbind frames (fun _ =>
  rbind (demand (1 <=? p_int P "mapping/frame_extraction_number" 10)%Z) (fun _ =>
  rbind (to_extraction (p_str P "mapping/frame_extraction_method" "NEARBY")) (fun _ =>
  Ok (Module "Mapping" [at_ "mapping/local_map" PointCloud2; at_ "output/global_map" PointCloud2; at_ "output/pose_graph" PoseGraph]
    [at_ "normal_estimation/pointcloud" PointCloud2; at_ "optimisation/path_changes" Path]
    [resolve "publish_map"; resolve "publish_pose_graph"] (Some unit))))).

(* RG 72-198 *)
Definition registration (unit : bool) : res module :=
  rbind frames (fun b =>
  rbind (matchers P) (fun _ =>
  rbind (reg_config P) (fun _ =>
  rbind (BfModel.body_to_frame look b "lidar" 0) (fun _ =>
  let clouds := p_bool P "debug/registration/publish_clouds" false in
  Ok (Module "Registration"
    ([at_ "registration/transform" PoseCov]
     ++ when clouds [at_ "debug/previous_pointcloud" PointCloud2; at_ "debug/current_pointcloud" PointCloud2; at_ "debug/imu_guess_pointcloud" PointCloud2;
                     at_ "debug/s2s_transformed_pointcloud" PointCloud2; at_ "debug/s2m_transformed_pointcloud" PointCloud2]
     ++ when (clouds && p_bool P "debug/registration/publish_clouds_alt" false)
             [at_ "debug/s2s_transformed_pointcloud_alt" PointCloud2; at_ "debug/s2m_transformed_pointcloud_alt" PointCloud2])
    [at_ "normal_estimation/pointcloud" PointCloud2; at_ "optimisation/imu_transform" TransformStamped; at_ "mapping/local_map" PointCloud2]
    [] (Some unit)))))).

(* SF 177-310 with the matcher's constructor (StModel.matcher_ok); the names are parsed by CfgModel.stereo_config *)
Definition stereo_finder : res module :=
  rbind (stereo_config P) (fun _ =>
  rbind (demand (StModel.matcher_ok (p_int P "stereo_tracking/stereo_keypoint_matcher/window_size/width" 3,
                                     p_int P "stereo_tracking/stereo_keypoint_matcher/window_size/height" 3)
                                    (p_num P "stereo_tracking/stereo_keypoint_matcher/ratio" (1#2)))) (fun _ =>
  Ok (Module "StereoFactorFinder"
    ([at_ "stereo/features" StereoFeatures]
     ++ when (p_bool P "debug/stereo/publish_stats" false) [at_ "stereo/statistics" StereoStatistics]
     ++ when (p_bool P "debug/stereo/publish_intermediate_results" false)
             [at_ "stereo/left/extracted_keypoints/image" Image; at_ "stereo/right/extracted_keypoints/image" Image;
              at_ "stereo/left/sof_matches/image" Image; at_ "stereo/right/sof_matches/image" Image;
              at_ "stereo/stereo_filtered_matches/image" Image; at_ "stereo/new_matches/image" Image; at_ "stereo/tracked_matches/image" Image]
     ++ when (p_bool P "debug/stereo/publish_points" false) [at_ "stereo/track_points" PointCloud2])
    [at_ "stereo/left/image" Image; at_ "stereo/right/image" Image; at_ "stereo/left/camera_info" CameraInfo; at_ "stereo/right/camera_info" CameraInfo]
    [] None))).

(* BT 9-40 *)
Definition frames_tf : res module :=
  rbind frames (fun b =>
  rbind (BfModel.static_transforms look b) (fun _ =>
  Ok (Module "BodyFramesTf" [] [] [resolve "lookup_transform"] None))).

(* the end of every main function: the number of threads *)
Definition threads_ok : res unit := demand (1 <=? p_int P "threads" 4)%Z.

(* node.cpp:15-87 *)
Definition single : res (list module) :=
  rbind frames_tf (fun tf =>
  rbind frontend (fun fe =>
  rbind optimisation (fun op =>
  rbind formatter (fun pf =>
  rbind (lidar_nodes P) (fun l =>
  rbind (match l with
         | Some (ns, unit) => rbind (mapping unit) (fun mp => rbind (registration unit) (fun rg => Ok (map (stage unit) ns ++ [mp; rg])))
         | None => Ok []
         end) (fun reg =>
  rbind (if stereo_on then rbind stereo_finder (fun s => Ok [s]) else Ok []) (fun st =>
  rbind threads_ok (fun _ => Ok ([tf; fe; op; pf] ++ reg ++ st))))))))).

(* frontend_node.cpp:11-65 *)
Definition frontend_node : res (list module) :=
  rbind frontend (fun fe =>
  rbind formatter (fun pf =>
  rbind (lidar_nodes P) (fun l =>
  rbind threads_ok (fun _ =>
  Ok ([fe; pf] ++ match l with Some (ns, unit) => map (stage unit) ns | None => [] end))))).
(* backend_node.cpp:11-55 *)
Definition backend_node : res (list module) :=
  rbind frames_tf (fun tf =>
  rbind optimisation (fun op =>
  rbind (if reg_on
         then rbind (requires_unit_s (p_str P "registration_covariance/method" "CENSI")
                                     (p_str P "registration_covariance/point_covariance/method" "RANGE")) (fun unit =>
              rbind (mapping unit) (fun mp => rbind (registration unit) (fun rg => Ok [mp; rg])))
         else Ok []) (fun reg =>
  rbind (if stereo_on then rbind stereo_finder (fun s => Ok [s]) else Ok []) (fun st =>
  rbind threads_ok (fun _ => Ok ([tf; op] ++ reg ++ st)))))).
(* stereo_pipeline_node.cpp:7-30 *)
Definition stereo_node : res (list module) :=
  rbind frames_tf (fun tf => rbind stereo_finder (fun s => rbind threads_ok (fun _ => Ok [tf; s]))).
End Start.

(* the default of record.launch:6-8 and the topics of scripts/metrics_node.py *)
Definition recorded : list string :=
  ["/serpent/optimisation/odometry"; "/serpent/optimisation/imu_biases"; "/serpent/registration/transform"; "/serpent/stereo/statistics";
   "/serpent/stereo/track_points_with_distances/statistics"; "/serpent/output/path"].
Definition measured : list port := [Port "/serpent/output/path" Path; Port "/serpent/output/pose" PoseCov; Port "/serpent/registration/transform" PoseCov].
