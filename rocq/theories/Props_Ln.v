(* Property C126: topics of the shipped launch files. Proofs in LnProofs.v, LnMore.v, LnPlat.v; cases in LnExamples.v. *)
From Coq Require Import Reals List ZArith QArith String Permutation.
From Verif Require Import Base NetModel CfgModel CfgSpec WrModel WrSpec WrProofs WrTheorems LnModel LnSpec LnProofs LnMore LnPlat LnExamples.
From Verif Require BfModel Geo CamModel CamSpec MsnModel MsnSpec.
Import ListNotations.
Open Scope string_scope.
Open Scope list_scope.

(* C126 *)
Theorem C126_modules :
  forall (look : string -> string -> Z -> res Geo.iso) (estimator_ok : robust -> bool) (P : params) (cfg : BfModel.xv) 
      (node : string) (a : sensors),
    own_topics a ->
    forall ms0 : list module,
    single look estimator_ok P cfg = Ok ms0 ->
    exists ms : list module, launch_single look estimator_ok P cfg node a = Ok ms /\ Forall2 (same_module a) ms0 ms.
Proof. exact (@launch_modules). Qed.
Theorem C126_fed :
  forall (look : string -> string -> Z -> res Geo.iso) (estimator_ok : robust -> bool) (P : params) (cfg : BfModel.xv) 
      (node : string) (a : sensors),
    own_topics a -> forall ms : list module, launch_single look estimator_ok P cfg node a = Ok ms -> fed_from (given P a) ms.
Proof. exact (@launch_fed). Qed.
Theorem C126_reads :
  forall (look : string -> string -> Z -> res Geo.iso) (estimator_ok : robust -> bool) (P : params) (cfg : BfModel.xv) 
      (node : string) (a : sensors),
    own_topics a -> forall (ms : list module) (p : port), launch_single look estimator_ok P cfg node a = Ok ms -> given P a p -> reads ms p.
Proof. exact (@launch_reads). Qed.
Theorem C126_publishes :
  forall (look : string -> string -> Z -> res Geo.iso) (estimator_ok : robust -> bool) (P : params) (cfg : BfModel.xv) 
      (node : string) (a : sensors) (ms ms0 : list module) (p : port),
    launch_single look estimator_ok P cfg node a = Ok ms -> single look estimator_ok P cfg = Ok ms0 -> publishes ms p <-> publishes ms0 p.
Proof. exact (@launch_publishes). Qed.
Theorem C126_outputs :
  forall (look : string -> string -> Z -> res Geo.iso) (estimator_ok : robust -> bool) (P : params) (cfg : BfModel.xv) 
      (node : string) (a : sensors) (ms : list module) (p : port),
    launch_single look estimator_ok P cfg node a = Ok ms -> output P p -> publishes ms p.
Proof. exact (@launch_outputs). Qed.
Theorem C126_one_publisher :
  forall (look : string -> string -> Z -> res Geo.iso) (estimator_ok : robust -> bool) (P : params) (cfg : BfModel.xv) 
      (node : string) (a : sensors) (ms : list module), launch_single look estimator_ok P cfg node a = Ok ms -> one_publisher ms.
Proof. exact (@launch_one_publisher). Qed.
Theorem C126_two_processes :
  forall (look : string -> string -> Z -> res Geo.iso) (estimator_ok : robust -> bool) (P : params) (cfg : BfModel.xv)
      (node node1 node2 : string) (a : sensors) (ms f b : list module),
    launch_single look estimator_ok P cfg node a = Ok ms ->
    launch_front look P cfg node1 a = Ok f -> launch_back look estimator_ok P cfg node2 = Ok b -> own_topics a -> Permutation ms (f ++ b).
Proof. exact (@launch_split). Qed.
Theorem C126_two_processes_start :
  forall (look : string -> string -> Z -> res Geo.iso) (estimator_ok : robust -> bool) (P : params) (cfg : BfModel.xv)
      (node node1 node2 : string) (a : sensors),
    (exists ms : list module, launch_single look estimator_ok P cfg node a = Ok ms) <->
    (exists f : list module, launch_front look P cfg node1 a = Ok f) /\ (exists b : list module, launch_back look estimator_ok P cfg node2 = Ok b).
Proof. exact (@launch_split_starts). Qed.
Theorem C126_tracker_alone :
  forall (look : string -> string -> Z -> res Geo.iso) (P : params) (cfg : BfModel.xv) (node : string) (a : sensors) (ms : list module),
    own_topics a ->
    launch_stereo look P cfg node a = Ok ms ->
    exists tf s : module,
      ms = [tf; s] /\
      m_subs tf = [] /\
      m_pubs tf = [] /\
      m_subs s =
      [{| topic := a_left a; kind := Image |}; {| topic := a_right a; kind := Image |}; {| topic := a_linfo a; kind := CameraInfo |};
       {| topic := a_rinfo a; kind := CameraInfo |}] /\
      (forall p : port, In p (m_pubs s) -> prefix "/serpent/" (topic p) = true) /\
      In {| topic := "/serpent/stereo/features"; kind := StereoFeatures |} (m_pubs s).
Proof. exact (@launch_stereo_alone). Qed.
Theorem C126_snowboard :
  forall (look : string -> string -> Z -> res Geo.iso) (estimator_ok : robust -> bool) (P : params) (cfg : BfModel.xv) 
      (node cam : string) (ms : list module), snowboard look estimator_ok P cfg node cam = Ok ms -> fed_from (snowboard_bag P) ms.
Proof. exact (@snowboard_fed). Qed.
Theorem C126_snowboard_any_camera :
  forall (look : string -> string -> Z -> res Geo.iso) (estimator_ok : robust -> bool) (P : params) (cfg : BfModel.xv) 
      (node cam : string) (b : bool) (ms : list module),
    In cam cameras ->
    launch_single look estimator_ok P cfg node (snowboard_sensors cam) = Ok ms ->
    exists s0 s1 : module,
      split_group "kit0" kit0 = Ok s0 /\ split_group "kit1" kit1 = Ok s1 /\ fed_from (snowboard_bag P) ([s0; s1; undistort b cam] ++ ms).
Proof. exact (@snowboard_cameras). Qed.
Theorem C126_snowboard_starts :
  forall (look : string -> string -> Z -> res Geo.iso) (estimator_ok : robust -> bool) (P : params) (cfg : BfModel.xv) (node cam : string),
    (exists ms : list module, snowboard look estimator_ok P cfg node cam = Ok ms) <->
    cam = "snowboard_left" /\ (exists ms : list module, single look estimator_ok P cfg = Ok ms).
Proof. exact (@snowboard_starts). Qed.
Theorem C126_snowboard_other_camera_refuted :
  forall (look : string -> string -> Z -> res Geo.iso) (estimator_ok : robust -> bool) (P : params) (cfg : BfModel.xv),
    exists cam : string, In cam cameras /\ (forall node : string, snowboard look estimator_ok P cfg node cam = Throw).
Proof. exact (@snowboard_other_refuted). Qed.
Theorem C126_undistort_eyes :
  forall (b : bool) (cam : string),
    undistort b cam =
    {|
      m_name := "undistort_" +++ cam;
      m_pubs :=
        [{| topic := "/" +++ cam +++ "/left/rect/image"; kind := Image |}; {| topic := "/" +++ cam +++ "/right/rect/image"; kind := Image |};
         {| topic := "/" +++ cam +++ "/left/rect/camera_info"; kind := CameraInfo |};
         {| topic := "/" +++ cam +++ "/right/rect/camera_info"; kind := CameraInfo |}];
      m_subs :=
        [{| topic := "/" +++ cam +++ "/left/image_raw"; kind := Image |}; {| topic := "/" +++ cam +++ "/right/image_raw"; kind := Image |}] ++
        when (negb b)
          [{| topic := "/" +++ cam +++ "/left/camera_info"; kind := CameraInfo |};
           {| topic := "/" +++ cam +++ "/right/camera_info"; kind := CameraInfo |}];
      m_srvs := [];
      m_unit := None
    |}.
Proof. exact (@undistort_is). Qed.
Theorem C126_ue4 :
  forall (look : string -> string -> Z -> res Geo.iso) (estimator_ok : robust -> bool) (P : params) (cfg : BfModel.xv) 
      (node : string) (c : pair_topics) (ms : list module), apart c -> ue4 look estimator_ok P cfg node c = Ok ms -> fed_from (ue4_bag P c) ms.
Proof. exact (@ue4_fed). Qed.
Theorem C126_ue4_eyes :
  forall (A : Type) (look : string -> string -> Z -> res Geo.iso) (m : list (string * pval)) (n : Z) (sv : MsnModel.server)
      (l r : list (CamModel.message A)) (li ri : CamModel.info),
    In m (MsnModel.pl_missions MsnModel.ue4) ->
    MsnSpec.used MsnModel.ue4 sv ->
    In li (CamModel.publish_info_run ue4_left_info l) ->
    In ri (CamModel.publish_info_run ue4_right_info r) ->
    exists b : BfModel.frames,
      BfModel.load look (MsnModel.sv_frames (MsnModel.launch MsnModel.ue4 m n sv)) = Ok b /\
      BfModel.frame_to_frame look b "left_cam" "right_cam" 0 = Ok {| Geo.lin := Geo.mI; Geo.tr := (baseline_of ri, 0%R, 0%R) |} /\
      (0 < baseline_of ri)%R /\
      (forall x y z : R,
       z <> 0%R ->
       project4 (CamModel.i_P li) (x, y, z) = CamSpec.project (CamModel.i_K li) (x, y, z) /\
       project4 (CamModel.i_P ri) (x, y, z) = CamSpec.project (CamModel.i_K ri) ((x - baseline_of ri)%R, y, z)).
Proof. exact (@ue4_eyes). Qed.
Theorem C126_simulator :
  forall (look : string -> string -> Z -> res Geo.iso) (estimator_ok : robust -> bool) (P : params) (cfg : BfModel.xv) 
      (node cam : string) (ms : list module),
    own_topics (simulator_sensors cam) -> simulator look estimator_ok P cfg node cam = Ok ms -> fed_from (given P (simulator_sensors cam)) ms.
Proof. exact (@simulator_fed). Qed.
Theorem C126_snowboard_sides :
  forall (look : string -> string -> Z -> res Geo.iso) (estimator_ok : robust -> bool) (P : params) (cfg : BfModel.xv) 
      (node cam : string) (ms : list module),
    snowboard look estimator_ok P cfg node cam = Ok ms ->
    exists (s0 s1 u : module) (sys ms0 : list module),
      ms = [s0; s1; u] ++ sys /\
      split_group "kit0" kit0 = Ok s0 /\
      split_group "kit1" kit1 = Ok s1 /\
      single look estimator_ok P cfg = Ok ms0 /\
      m_subs s0 = [{| topic := "/kit0/image"; kind := Image |}] /\
      m_subs s1 = [{| topic := "/kit1/image"; kind := Image |}] /\
      m_subs u = [{| topic := "/snowboard_left/left/image_raw"; kind := Image |}; {| topic := "/snowboard_left/right/image_raw"; kind := Image |}] /\
      m_pubs u =
      [{| topic := "/snowboard_left/left/rect/image"; kind := Image |}; {| topic := "/snowboard_left/right/rect/image"; kind := Image |};
       {| topic := "/snowboard_left/left/rect/camera_info"; kind := CameraInfo |};
       {| topic := "/snowboard_left/right/rect/camera_info"; kind := CameraInfo |}] /\
      Forall2
        (same_module
           {|
             a_imu := "/vectornav/imu";
             a_cloud := "/os_cloud_node/points";
             a_left := "/snowboard_left/left/rect/image";
             a_right := "/snowboard_left/right/rect/image";
             a_linfo := "/snowboard_left/left/rect/camera_info";
             a_rinfo := "/snowboard_left/right/rect/camera_info";
             a_baro := "/barometer"
           |}) ms0 sys.
Proof. exact (@snowboard_sides). Qed.
Theorem C126_ue4_sides :
  forall (look : string -> string -> Z -> res Geo.iso) (estimator_ok : robust -> bool) (P : params) (cfg : BfModel.xv) 
      (node : string) (c : pair_topics) (ms : list module),
    own (c_left c) ->
    own (c_right c) ->
    own (c_linfo c) ->
    own (c_rinfo c) ->
    ue4 look estimator_ok P cfg node c = Ok ms ->
    exists (l r : module) (sys ms0 : list module),
      ms = [l; r] ++ sys /\
      single look estimator_ok P cfg = Ok ms0 /\
      m_subs l = [{| topic := c_left c; kind := Image |}] /\
      m_pubs l = [{| topic := c_linfo c; kind := CameraInfo |}] /\
      m_subs r = [{| topic := c_right c; kind := Image |}] /\
      m_pubs r = [{| topic := c_rinfo c; kind := CameraInfo |}] /\
      Forall2
        (same_module
           {|
             a_imu := "/imu";
             a_cloud := "/lidar/points";
             a_left := c_left c;
             a_right := c_right c;
             a_linfo := c_linfo c;
             a_rinfo := c_rinfo c;
             a_baro := "/barometer"
           |}) ms0 sys.
Proof. exact (@ue4_sides). Qed.
Theorem C126_simulator_sides :
  forall (look : string -> string -> Z -> res Geo.iso) (estimator_ok : robust -> bool) (P : params) (cfg : BfModel.xv) 
      (node cam : string) (ms0 : list module),
    own_topics (simulator_sensors cam) ->
    single look estimator_ok P cfg = Ok ms0 ->
    exists ms : list module,
      simulator look estimator_ok P cfg node cam = Ok ms /\
      Forall2
        (same_module
           {|
             a_imu := "/imu";
             a_cloud := "/points";
             a_left := "/" +++ cam +++ "/left/image_raw";
             a_right := "/" +++ cam +++ "/right/image_raw";
             a_linfo := "/" +++ cam +++ "/left/camera_info";
             a_rinfo := "/" +++ cam +++ "/right/camera_info";
             a_baro := "/barometer"
           |}) ms0 ms.
Proof. exact (@simulator_sides). Qed.
Theorem C126_long_picture :
  forall (A : Type) (msg : CamModel.message A) (g : group) (cs : list CamModel.split_config),
    CamModel.parse_configuration (images_of g) = Ok cs ->
    large msg ->
    exists (out : list (CamModel.output A)) (l : list (string * CamModel.message A * string * CamModel.info)),
      CamModel.split msg cs = (out, Ok tt) /\
      Permutation out (flat_map published l) /\
      Forall2 (fun '(k, (cam, side)) '(t, m, ti, i) => sent g msg k cam side t m ti i) (combine [0; 1; 2; 3] (seen g)) l.
Proof. exact (@long_picture). Qed.
Theorem C126_small_picture :
  forall (A : Type) (msg : CamModel.message A) (g : group) (cs : list CamModel.split_config),
    CamModel.parse_configuration (images_of g) = Ok cs -> ~ large msg -> snd (CamModel.split msg cs) = Throw.
Proof. exact (@small_picture). Qed.
Theorem C126_own_names_refuted :
  forall ms : list module, launch_single look est P0 robot "serpent" loop = Ok ms -> ~ fed_from (given P0 loop) ms.
Proof. exact (@loop_not_fed). Qed.

Print Assumptions C126_modules.
Print Assumptions C126_fed.
Print Assumptions C126_reads.
Print Assumptions C126_publishes.
Print Assumptions C126_outputs.
Print Assumptions C126_one_publisher.
Print Assumptions C126_two_processes.
Print Assumptions C126_two_processes_start.
Print Assumptions C126_tracker_alone.
Print Assumptions C126_snowboard.
Print Assumptions C126_snowboard_any_camera.
Print Assumptions C126_snowboard_starts.
Print Assumptions C126_snowboard_other_camera_refuted.
Print Assumptions C126_undistort_eyes.
Print Assumptions C126_ue4.
Print Assumptions C126_ue4_eyes.
Print Assumptions C126_simulator.
Print Assumptions C126_snowboard_sides.
Print Assumptions C126_ue4_sides.
Print Assumptions C126_simulator_sides.
Print Assumptions C126_long_picture.
Print Assumptions C126_small_picture.
Print Assumptions C126_own_names_refuted.
