(* What a user of the launch files relies on: stated over topics, message types and pictures. *)
From Coq Require Import ZArith QArith List Bool String Reals Lia.
From Verif Require Import Base NetModel CfgModel CfgSpec WrModel WrSpec LnModel.
From Verif Require CamModel CamSpec Geo.
Import ListNotations.
Open Scope string_scope.
Open Scope list_scope.

(* a global name outside the names the system keeps for itself *)
Definition own (t : string) : Prop := String.prefix "/" t = true /\ String.prefix "/serpent/" t = false.
Definition own_topics (a : sensors) : Prop :=
  own (a_imu a) /\ own (a_cloud a) /\ own (a_left a) /\ own (a_right a) /\ own (a_linfo a) /\ own (a_rinfo a) /\ own (a_baro a).

(* the sensors of a configuration, under the names given to the launch file *)
Inductive given (P : params) (a : sensors) : port -> Prop :=
| g_imu : given P a (Port (a_imu a) Imu)
| g_cloud : given P a (Port (a_cloud a) PointCloud2)
| g_left : with_stereo P -> given P a (Port (a_left a) Image)
| g_right : with_stereo P -> given P a (Port (a_right a) Image)
| g_linfo : with_stereo P -> given P a (Port (a_linfo a) CameraInfo)
| g_rinfo : with_stereo P -> given P a (Port (a_rinfo a) CameraInfo)
| g_baro : with_barometer P -> given P a (Port (a_baro a) FluidPressure).

(* which name stands for which after the launch: the seven inputs are the arguments of the same meaning, the rest stays *)
Inductive moved (a : sensors) : port -> port -> Prop :=
| mv_imu k : moved a (Port "/serpent/input/imu" k) (Port (a_imu a) k)
| mv_cloud k : moved a (Port "/serpent/input/pointcloud" k) (Port (a_cloud a) k)
| mv_left k : moved a (Port "/serpent/input/stereo/left/image" k) (Port (a_left a) k)
| mv_right k : moved a (Port "/serpent/input/stereo/right/image" k) (Port (a_right a) k)
| mv_linfo k : moved a (Port "/serpent/input/stereo/left/camera_info" k) (Port (a_linfo a) k)
| mv_rinfo k : moved a (Port "/serpent/input/stereo/right/camera_info" k) (Port (a_rinfo a) k)
| mv_baro k : moved a (Port "/serpent/input/barometer" k) (Port (a_baro a) k)
| mv_stay p : String.prefix "/serpent/input/" (topic p) = false -> moved a p p.
Record same_module (a : sensors) (m m' : module) : Prop := {
  sm_name : m_name m' = m_name m;
  sm_pubs : m_pubs m' = m_pubs m;
  sm_subs : Forall2 (moved a) (m_subs m) (m_subs m');
  sm_srvs : m_srvs m' = m_srvs m;
  sm_unit : m_unit m' = m_unit m
}.

(* every subscription of a system has one source with the type it expects: a sensor outside, or one module inside *)
Definition fed_from (ext : port -> Prop) (ms : list module) : Prop := forall s, reads ms s ->
  ext s /\ (forall p, publishes ms p -> topic p <> topic s) \/
  publishes ms s /\ (forall p, publishes ms p -> topic p = topic s -> p = s) /\ (forall p, ext p -> topic p <> topic s).

(* the recordings of the three platforms *)
Inductive snowboard_bag (P : params) : port -> Prop :=
| sb_imu : snowboard_bag P (Port "/vectornav/imu" Imu)
| sb_cloud : snowboard_bag P (Port "/os_cloud_node/points" PointCloud2)
| sb_kit0 : snowboard_bag P (Port "/kit0/image" Image)
| sb_kit1 : snowboard_bag P (Port "/kit1/image" Image)
| sb_baro : with_barometer P -> snowboard_bag P (Port "/barometer" FluidPressure).
Inductive ue4_bag (P : params) (c : pair_topics) : port -> Prop :=
| ub_imu : ue4_bag P c (Port "/imu" Imu)
| ub_cloud : ue4_bag P c (Port "/lidar/points" PointCloud2)
| ub_left : ue4_bag P c (Port (c_left c) Image)
| ub_right : ue4_bag P c (Port (c_right c) Image)
| ub_baro : with_barometer P -> ue4_bag P c (Port "/barometer" FluidPressure).
(* seven names for seven things *)
Definition apart (c : pair_topics) : Prop :=
  NoDup [c_left c; c_linfo c; c_right c; c_rinfo c; "/imu"; "/lidar/points"; "/barometer"] /\
  own (c_left c) /\ own (c_linfo c) /\ own (c_right c) /\ own (c_rinfo c).

(* ---------------------------------------------------------------- the cameras of the snowboard *)
(* One long picture of four cameras.  kit0 is mounted upside down: its picture is looked at turned by half a turn. *)
Inductive group := KIT0 | KIT1.
Definition images_of (g : group) : BfModel.xv := match g with KIT0 => kit0 | KIT1 => kit1 end.
Definition upright {A} (g : group) (p : CamModel.picture A) : Z -> Z -> A :=
  match g with KIT0 => fun c r => CamModel.px p (5119 - c) (799 - r) | KIT1 => CamModel.px p end.
(* the four cameras of a group in the order in which they are seen in the upright picture, left eye before right eye *)
Definition seen (g : group) : list (string * string) :=
  match g with
  | KIT0 => [("left", "left"); ("left", "right"); ("front", "left"); ("front", "right")]
  | KIT1 => [("up", "left"); ("up", "right"); ("right", "left"); ("right", "right")]
  end.
(* what a camera must send for a long picture: its quarter of the upright picture under its own names *)
Record sent {A} (g : group) (msg : CamModel.message A) (k : Z) (cam side : string)
            (topic : string) (m : CamModel.message A) (info_topic : string) (i : CamModel.info) : Prop := {
  st_topic : topic = "/snowboard_" +++ cam +++ "/" +++ side +++ "/image_raw";
  st_info : info_topic = "/snowboard_" +++ cam +++ "/" +++ side +++ "/camera_info";
  st_head : CamModel.m_head m = CamModel.mkHeader (CamModel.h_stamp (CamModel.m_head msg)) (cam +++ "_stereo_" +++ side +++ "_cam");
  st_ihead : CamModel.i_head i = CamModel.m_head m;
  st_enc : CamModel.m_encoding m = CamModel.m_encoding msg;
  st_size : CamModel.cols (CamModel.m_pic m) = 1280%Z /\ CamModel.rows (CamModel.m_pic m) = 800%Z;
  st_isize : CamModel.i_width i = 1280%Z /\ CamModel.i_height i = 800%Z;
  st_K : CamModel.i_K i = ((1, 0, 640), (0, 1, 400), (0, 0, 1))%R;
  st_px : forall c r, (0 <= c < 1280)%Z -> (0 <= r < 800)%Z ->
    CamModel.px (CamModel.m_pic m) c r = upright g (CamModel.m_pic msg) (1280 * k + c)%Z r
}.

(* a 3x4 projection of a point *)
Definition project4 (P : ((R * R * R) * (R * R * R) * (R * R * R)) * (R * R * R)) (p : R * R * R) : R * R := let '(a, b, c) := Geo.vadd (Geo.mapply (fst P) p) (snd P) in (a / c, b / c)%R.
