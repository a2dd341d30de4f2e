(* Which topics the shipped launch files connect.
   serpent/launch/serpent.launch (SL), serpent_frontend.launch (FL), serpent_backend.launch (BL), serpent_stereo_pipeline.launch (PL),
   camera_tools/launch/split_image.launch, publish_info.launch, snowboard/launch/serpent.launch, split_image(s).launch,
   undistort_stereo.launch, ue4_missions/launch/serpent.launch, publish_camera_info.launch,
   simulator_prcp_missions/launch/serpent.launch.
   Every node is started in the namespace /.  Parameters are those of WrModel.v; the players of recordings and the windows
   for looking at data are left out. *)
From Coq Require Import ZArith QArith List Bool String Reals.
From Verif Require Import Base NetModel CfgModel BfModel WrModel.
From Verif Require Geo CamModel.
Import ListNotations.
Open Scope string_scope.
Open Scope list_scope.
Infix "+++" := String.append (at level 60, right associativity).

(* ROS names: "/x" stays, "~x" is private to the node, anything else lies in the namespace / *)
Definition named (node s : string) : string :=
  if String.prefix "/" s then s
  else if String.prefix "~" s then "/" +++ node +++ "/" +++ substring 1 (String.length s - 1) s
  else "/" +++ s.
(* <remap from to>: names of a process are looked up once, after both sides are resolved *)
Definition remap (node : string) (l : list (string * string)) (t : string) : string :=
  match find (fun e => String.eqb (named node (fst e)) t) l with Some e => named node (snd e) | None => t end.
Definition port_renamed (node : string) (l : list (string * string)) (p : port) : port := Port (remap node l (topic p)) (kind p).
Definition renamed (node : string) (l : list (string * string)) (m : module) : module :=
  Module (m_name m) (map (port_renamed node l) (m_pubs m)) (map (port_renamed node l) (m_subs m)) (map (remap node l) (m_srvs m)) (m_unit m).

(* SL 3-9: the arguments that name sensor topics *)
Record sensors := Sensors { a_imu : string; a_cloud : string; a_left : string; a_right : string; a_linfo : string; a_rinfo : string; a_baro : string }.
(* SL 67-73 *)
Definition serpent_remaps (a : sensors) : list (string * string) :=
  [("serpent/input/imu", a_imu a);
   ("serpent/input/pointcloud", a_cloud a);
   ("serpent/input/stereo/left/image", a_left a);
   ("serpent/input/stereo/right/image", a_right a);
   ("serpent/input/stereo/left/camera_info", a_linfo a);
   ("serpent/input/stereo/right/camera_info", a_rinfo a);
   ("serpent/input/barometer", a_baro a)].
(* FL 57-63 *)
Definition frontend_remaps (a : sensors) : list (string * string) :=
  [("serpent/input/imu", a_imu a);
   ("serpent/input/pointcloud", a_cloud a);
   ("serpent/input/stereo/left/image", a_left a);
   ("serpent/input/stereo/right/image", a_right a);
   ("serpent/input/stereo/left/camera_info", a_linfo a);
   ("serpent/input/stereo/right/camera_info", a_rinfo a);
   ("serpent/input/barometer", a_baro a)].
(* PL 59-62 *)
Definition stereo_remaps (a : sensors) : list (string * string) :=
  [("serpent/stereo/left/image", a_left a);
   ("serpent/stereo/right/image", a_right a);
   ("serpent/stereo/left/camera_info", a_linfo a);
   ("serpent/stereo/right/camera_info", a_rinfo a)].

(* ---------------------------------------------------------------- the nodes of camera_tools and image_undistort *)
(* camera_tools/src/split_image.cpp 7-12, 24, 53-56: NodeHandle("~") *)
Definition private (s : string) : string := if String.prefix "/" s then s else "~" +++ s.
Definition splitter (node image_topic : string) (images : xv) : res module :=
  rbind (CamModel.parse_configuration images) (fun cs =>
  Ok (renamed node [("~input/image", image_topic)]
    (Module (node)
      (flat_map (fun s => [Port (named node (private (CamModel.s_topic s))) Image; Port (named node (private (CamModel.s_info_topic s))) CameraInfo]) cs)
      [Port (named node "~input/image") Image] [] None))).
(* camera_tools/src/publish_info.cpp 5-11 *)
Definition info_publisher (node image_topic info_topic : string) : module :=
  renamed node [("~input/image", image_topic); ("~output/camera_info", info_topic)]
    (Module (node) [Port (named node "~output/camera_info") CameraInfo] [Port (named node "~input/image") Image] [] None).
(* image_undistort's stereo_undistort_node is not in /repo: it takes the first and the second raw picture to the first and
   the second rectified one, and reads camera infos only when input_camera_info_from_ros_params is not set.
   snowboard/launch/undistort_stereo.launch 6, 22-29 *)
Definition undistort_remaps (cam : string) : list (string * string) :=
  [("raw/first/image", "/" +++ cam +++ "/left/image_raw");
   ("raw/second/image", "/" +++ cam +++ "/right/image_raw");
   ("raw/first/camera_info", "/" +++ cam +++ "/left/camera_info");
   ("raw/second/camera_info", "/" +++ cam +++ "/right/camera_info");
   ("rect/first/image", "/" +++ cam +++ "/left/rect/image");
   ("rect/second/image", "/" +++ cam +++ "/right/rect/image");
   ("rect/first/camera_info", "/" +++ cam +++ "/left/rect/camera_info");
   ("rect/second/camera_info", "/" +++ cam +++ "/right/rect/camera_info")].
Definition undistort (info_from_params : bool) (cam : string) : module :=
  let node := "undistort_" +++ cam in
  renamed node (undistort_remaps cam)
    (Module (node)
      [Port "/rect/first/image" Image; Port "/rect/second/image" Image; Port "/rect/first/camera_info" CameraInfo; Port "/rect/second/camera_info" CameraInfo]
      ([Port "/raw/first/image" Image; Port "/raw/second/image" Image]
       ++ when (negb info_from_params) [Port "/raw/first/camera_info" CameraInfo; Port "/raw/second/camera_info" CameraInfo])
      [] None).

(* ---------------------------------------------------------------- parameter files *)
(* an entry of snowboard/config/camera_tools/split_kit0.yaml and split_kit1.yaml; the members in the order of a std::map *)
Definition sub_image (topic frame info_topic : string) (u : Z) (operations : list (string * xv)) : xv :=
  XStruct ([("distortion", XStruct [("k1", XDouble 0); ("k2", XDouble 0); ("k3", XDouble 0); ("model", XString "plumb_bob"); ("t1", XDouble 0); ("t2", XDouble 0)]);
            ("frame_id", XString frame);
            ("info_topic", XString info_topic);
            ("intrinsic", XStruct [("cx", XInt 640); ("cy", XInt 400); ("fx", XDouble 1); ("fy", XDouble 1)])]
           ++ match operations with [] => [] | _ => [("operations", XStruct operations)] end
           ++ [("region", XStruct [("h", XInt 800); ("u", XInt u); ("v", XInt 0); ("w", XInt 1280)]);
               ("topic", XString topic)]).
(* split_kit0.yaml *)
Definition kit0 : xv := XArray
  [sub_image "/snowboard_front/right/image_raw" "front_stereo_right_cam" "/snowboard_front/right/camera_info" 0 [("rotate_cw", XInt 180)];
   sub_image "/snowboard_front/left/image_raw" "front_stereo_left_cam" "/snowboard_front/left/camera_info" 1280 [("rotate_cw", XInt 180)];
   sub_image "/snowboard_left/right/image_raw" "left_stereo_right_cam" "/snowboard_left/right/camera_info" 2560 [("rotate_cw", XInt 180)];
   sub_image "/snowboard_left/left/image_raw" "left_stereo_left_cam" "/snowboard_left/left/camera_info" 3840 [("rotate_cw", XInt 180)]].
(* split_kit1.yaml *)
Definition kit1 : xv := XArray
  [sub_image "/snowboard_up/left/image_raw" "up_stereo_left_cam" "/snowboard_up/left/camera_info" 0 [];
   sub_image "/snowboard_up/right/image_raw" "up_stereo_right_cam" "/snowboard_up/right/camera_info" 1280 [];
   sub_image "/snowboard_right/left/image_raw" "right_stereo_left_cam" "/snowboard_right/left/camera_info" 2560 [];
   sub_image "/snowboard_right/right/image_raw" "right_stereo_right_cam" "/snowboard_right/right/camera_info" 3840 []].
(* the directories under snowboard/config/camera_calibration with a file ds-none-camchain.yaml *)
Definition calibrated : list string := ["snowboard_left"].

(* ---------------------------------------------------------------- the launch files *)
Section Start.
Variable look : string -> string -> Z -> res Geo.iso.
Variable estimator_ok : robust -> bool.
Variable P : params.
Variable cfg : xv.

(* SL 64-74 *)
Definition launch_single (program_name : string) (a : sensors) : res (list module) :=
  rbind (single look estimator_ok P cfg) (fun ms => Ok (map (renamed program_name (serpent_remaps a)) ms)).
(* FL 54-64 *)
Definition launch_front (program_name : string) (a : sensors) : res (list module) :=
  rbind (frontend_node look P cfg) (fun ms => Ok (map (renamed program_name (frontend_remaps a)) ms)).
(* BL 41-42 *)
Definition launch_back (program_name : string) : res (list module) :=
  rbind (backend_node look estimator_ok P cfg) (fun ms => Ok (map (renamed program_name []) ms)).
(* PL 56-63 *)
Definition launch_stereo (program_name : string) (a : sensors) : res (list module) :=
  rbind (stereo_node look P cfg) (fun ms => Ok (map (renamed program_name (stereo_remaps a)) ms)).

(* snowboard/launch/serpent.launch 26-31; barometer_topic keeps the default of SL 9 *)
Definition snowboard_sensors (cam : string) : sensors :=
  Sensors "/vectornav/imu" "/os_cloud_node/points" ("/" +++ cam +++ "/left/rect/image") ("/" +++ cam +++ "/right/rect/image")
          ("/" +++ cam +++ "/left/rect/camera_info") ("/" +++ cam +++ "/right/rect/camera_info") "/barometer".
(* snowboard/launch/split_image.launch 3-7 *)
Definition split_group (group : string) (images : xv) : res module := splitter ("split_image_" +++ group) ("/" +++ group +++ "/image") images.
(* snowboard/launch/serpent.launch 17-50; roslaunch stops when the file of undistort_stereo.launch 3, 47 is missing *)
Definition snowboard (program_name cam : string) : res (list module) :=
  if existsb (String.eqb cam) calibrated then
    rbind (split_group "kit0" kit0) (fun s0 => rbind (split_group "kit1" kit1) (fun s1 =>
    rbind (launch_single program_name (snowboard_sensors cam)) (fun ms => Ok ([s0; s1; undistort true cam] ++ ms))))
  else Throw.

(* ue4_missions/launch/serpent.launch 16-19, 31-36 *)
Record pair_topics := Pair { c_left : string; c_linfo : string; c_right : string; c_rinfo : string }.
Definition ue4_sensors (c : pair_topics) : sensors := Sensors "/imu" "/lidar/points" (c_left c) (c_right c) (c_linfo c) (c_rinfo c) "/barometer".
Definition ue4_default : pair_topics := Pair "/left_cam/image_raw" "/left_cam/camera_info" "/right_cam/image_raw" "/right_cam/camera_info".
(* ue4_missions/launch/serpent.launch 22-55, publish_camera_info.launch 7-18 *)
Definition ue4 (program_name : string) (c : pair_topics) : res (list module) :=
  rbind (launch_single program_name (ue4_sensors c)) (fun ms =>
  Ok ([info_publisher "publish_left_camera_info" (c_left c) (c_linfo c); info_publisher "publish_right_camera_info" (c_right c) (c_rinfo c)] ++ ms)).

(* simulator_prcp_missions/launch/serpent.launch 13-36 *)
Definition simulator_sensors (cam : string) : sensors :=
  Sensors "/imu" "/points" ("/" +++ cam +++ "/left/image_raw") ("/" +++ cam +++ "/right/image_raw")
          ("/" +++ cam +++ "/left/camera_info") ("/" +++ cam +++ "/right/camera_info") "/barometer".
Definition simulator (program_name cam : string) : res (list module) := launch_single program_name (simulator_sensors cam).
End Start.

(* ue4_missions/config/left_camera_info.yaml, right_camera_info.yaml: what publish_info.cpp 14-31 makes of them *)
Definition ue4_lens : CamModel.lens := CamModel.mkLens (25207471375549554 / 100000000000000) 360 (25207471375549554 / 100000000000000) 360.
Definition ue4_left_info : CamModel.info := CamModel.publish_info_init "" [] ue4_lens ue4_lens 0.
Definition ue4_right_info : CamModel.info := CamModel.publish_info_init "" [] ue4_lens ue4_lens (1 / 10).
(* serpent/src/front_end/stereo/stereo_factor_finder.cpp 341, 395: -P[3] / P[0] of the right info *)
Definition baseline_of (i : CamModel.info) : R :=
  let '(((p0, _, _), _, _), (p3, _, _)) := CamModel.i_P i in (- p3 / p0)%R.
