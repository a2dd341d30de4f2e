(* What the wiring of the nodes should be: stated over topics, message types and switches only. *)
From Coq Require Import ZArith QArith List Bool String.
From Verif Require Import Base NetModel CfgModel CfgSpec WrModel.
From Verif Require BfModel Geo.
Import ListNotations.
Open Scope string_scope.
Open Scope list_scope.

Definition with_registration P := on_ P "optimisation/factors/registration" true.
Definition with_stereo P := on_ P "optimisation/factors/stereo" true.
Definition with_barometer P := on_ P "optimisation/factors/barometer" true.

(* what the sensors have to provide *)
Inductive input (P : params) : port -> Prop :=
| i_imu : input P (Port "/serpent/input/imu" Imu)
| i_cloud : input P (Port "/serpent/input/pointcloud" PointCloud2)
| i_left : with_stereo P -> input P (Port "/serpent/input/stereo/left/image" Image)
| i_right : with_stereo P -> input P (Port "/serpent/input/stereo/right/image" Image)
| i_linfo : with_stereo P -> input P (Port "/serpent/input/stereo/left/camera_info" CameraInfo)
| i_rinfo : with_stereo P -> input P (Port "/serpent/input/stereo/right/camera_info" CameraInfo)
| i_baro : with_barometer P -> input P (Port "/serpent/input/barometer" FluidPressure).

(* what a user gets *)
Inductive output (P : params) : port -> Prop :=
| o_odometry : output P (Port "/serpent/output/odometry" Odometry)
| o_pose : output P (Port "/serpent/output/pose" PoseCov)
| o_path : output P (Port "/serpent/output/path" Path)
| o_map : with_registration P -> output P (Port "/serpent/output/global_map" PointCloud2)
| o_graph : with_registration P -> output P (Port "/serpent/output/pose_graph" PoseGraph).

(* the switches of the debugging publishers; the module that has them must be running *)
Definition debug_on (P : params) : Prop :=
  on_ P "debug/optimisation/publish_stereo_points" false \/
  with_registration P /\ on_ P "debug/registration/publish_clouds" false \/
  with_stereo P /\ (on_ P "debug/stereo/publish_stats" false \/ on_ P "debug/stereo/publish_intermediate_results" false \/
                    on_ P "debug/stereo/publish_points" false).

Definition publishes (ms : list module) (p : port) : Prop := exists m, In m ms /\ In p (m_pubs m).
Definition reads (ms : list module) (p : port) : Prop := exists m, In m ms /\ In p (m_subs m).

(* no two publishers share a name *)
Definition one_publisher (ms : list module) : Prop := NoDup (map topic (flat_map m_pubs ms)).
(* every subscription is fed, by one module and with the type it expects, from a sensor or from inside *)
Definition fed (P : params) (ms : list module) : Prop := forall s, reads ms s ->
  input P s /\ (forall p, publishes ms p -> topic p <> topic s) \/
  publishes ms s /\ (forall p, publishes ms p -> topic p = topic s -> p = s) /\ (forall p, input P p -> topic p <> topic s).
(* every point type is the same *)
Definition same_points (ms : list module) : Prop :=
  forall m m' u u', In m ms -> In m' ms -> m_unit m = Some u -> m_unit m' = Some u' -> u = u'.

(* A configuration accepted at start-up.  `estimator_ok` stands for gtsam's own checks of an estimator's parameter.
   The lidar pipeline, the matchers, the covariance settings and the tracker's names have acceptance conditions of
   their own, stated in CfgProofs.v. *)
Definition can {A} (r : res A) : Prop := exists a, r = Ok a.
Definition odd_size (w : Z) : Prop := (1 <= w /\ w mod 2 = 1)%Z.
Record accepted (look : string -> string -> Z -> res Geo.iso) (estimator_ok : robust -> bool) (P : params) (cfg : BfModel.xv) : Prop := {
  a_frames : exists b, BfModel.load look cfg = Ok b /\ can (BfModel.static_transforms look b) /\
    (exists id, BfModel.frame_id b "base_link" = Ok id) /\ can (BfModel.body_to_frame look b "imu" 0) /\
    (with_stereo P -> can (BfModel.body_to_frame look b (p_str P "stereo_factors/left_cam_frame" "stereo") 0)) /\
    (with_registration P -> can (BfModel.body_to_frame look b "lidar" 0));
  a_mdc : with_stereo P -> on_ P "mdc/translation" true /\ on_ P "mdc/rotation" true;
  a_imu : on_ P "imu/noise/overwrite" false ->
    ~ (p_num P "gravity" (981#100) == 0)%Q /\ ~ (p_num P "imu/noise/accelerometer" (1#1000) == 0)%Q /\
    ~ (p_num P "imu/noise/gyroscope" (1#1000) == 0)%Q /\ ~ (p_num P "imu/noise/integration" (1#1000) == 0)%Q;
  a_baro : on_ P "barometer/noise/overwrite" false -> ~ (p_num P "barometer/noise/barometer" (1#100) == 0)%Q;
  a_bias : with_barometer P -> ~ (p_num P "barometer/noise/barometer_bias" (1#1000000) == 0)%Q;
  a_isam : In (p_str P "isam2/optimization" "GaussNewton") ["GaussNewton"; "Dogleg"];
  a_robust : with_stereo P -> on_ P "stereo_factors/robust/enabled" true ->
    exists r, robust_model P = Ok r /\ (forall e, r = Some e -> estimator_ok e = true);
  a_window : on_ P "optimisation/marginalisation/enabled" false -> (0 <= p_int P "optimisation/marginalisation/window_size" 100)%Z;
  a_sensor : In (p_str P "pointcloud_type" "OUSTER") ["OUSTER"; "CUSTOM"];
  a_lidar : can (lidar_nodes P);
  a_match : with_registration P -> can (matchers P) /\ can (reg_config P);
  a_map : with_registration P -> (1 <= p_int P "mapping/frame_extraction_number" 10)%Z /\
    In (p_str P "mapping/frame_extraction_method" "NEARBY") ["NEARBY"; "PAST"];
  a_stereo : with_stereo P -> can (stereo_config P) /\
    odd_size (p_int P "stereo_tracking/stereo_keypoint_matcher/window_size/width" 3) /\
    odd_size (p_int P "stereo_tracking/stereo_keypoint_matcher/window_size/height" 3) /\
    (0 < p_num P "stereo_tracking/stereo_keypoint_matcher/ratio" (1#2) < 1)%Q;
  a_threads : (1 <= p_int P "threads" 4)%Z
}.
