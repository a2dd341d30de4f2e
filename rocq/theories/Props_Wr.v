(* Properties C102-C103: wiring and start-up of the nodes. Proofs in WrProofs.v, WrTheorems.v; cases and refutations in WrExamples.v. *)
From Coq Require Import ZArith QArith List Bool String Permutation.
From Verif Require Import Base NetModel CfgModel CfgSpec WrModel WrSpec WrProofs WrTheorems WrExamples.
From Verif Require BfModel BfExamples Geo.
Import ListNotations.

(* C102 *)
Theorem C102_fed :
  forall (look : string -> string -> Z -> res Geo.iso) (estimator_ok : robust -> bool) (P : params) (cfg : BfModel.xv) (ms : list module),
    single look estimator_ok P cfg = Ok ms -> fed P ms.
Proof. exact (@single_fed). Qed.
Theorem C102_one_publisher :
  forall (look : string -> string -> Z -> res Geo.iso) (estimator_ok : robust -> bool) (P : params) (cfg : BfModel.xv) (ms : list module),
    single look estimator_ok P cfg = Ok ms -> one_publisher ms.
Proof. exact (@single_one_publisher). Qed.
Theorem C102_inputs_read :
  forall (look : string -> string -> Z -> res Geo.iso) (estimator_ok : robust -> bool) (P : params) (cfg : BfModel.xv) 
      (ms : list module) (p : port), single look estimator_ok P cfg = Ok ms -> input P p -> reads ms p.
Proof. exact (@inputs_read). Qed.
Theorem C102_outputs_published :
  forall (look : string -> string -> Z -> res Geo.iso) (estimator_ok : robust -> bool) (P : params) (cfg : BfModel.xv) 
      (ms : list module) (p : port), single look estimator_ok P cfg = Ok ms -> output P p -> publishes ms p.
Proof. exact (@outputs_published). Qed.
Theorem C102_outputs_only :
  forall (look : string -> string -> Z -> res Geo.iso) (estimator_ok : robust -> bool) (P : params) (cfg : BfModel.xv) 
      (ms : list module) (p : port),
    single look estimator_ok P cfg = Ok ms -> publishes ms p -> prefix "/serpent/output/" (topic p) = true -> output P p.
Proof. exact (@outputs_only). Qed.
Theorem C102_published_read :
  forall (look : string -> string -> Z -> res Geo.iso) (estimator_ok : robust -> bool) (P : params) (cfg : BfModel.xv) 
      (ms : list module) (p : port),
    single look estimator_ok P cfg = Ok ms -> with_registration P -> ~ debug_on P -> publishes ms p -> reads ms p \/ output P p.
Proof. exact (@published_read). Qed.
Theorem C102_same_points :
  forall (look : string -> string -> Z -> res Geo.iso) (estimator_ok : robust -> bool) (P : params) (cfg : BfModel.xv) (ms : list module),
    single look estimator_ok P cfg = Ok ms -> same_points ms.
Proof. exact (@single_points). Qed.
Theorem C102_services :
  forall (look : string -> string -> Z -> res Geo.iso) (estimator_ok : robust -> bool) (P : params) (cfg : BfModel.xv) (ms : list module),
    single look estimator_ok P cfg = Ok ms ->
    NoDup (flat_map m_srvs ms) /\
    In "/serpent/lookup_transform" (flat_map m_srvs ms) /\
    (with_registration P -> In "/serpent/publish_map" (flat_map m_srvs ms) /\ In "/serpent/publish_pose_graph" (flat_map m_srvs ms)).
Proof. exact (@services_distinct). Qed.
Theorem C102_metrics_fed :
  forall (look : string -> string -> Z -> res Geo.iso) (estimator_ok : robust -> bool) (P : params) (cfg : BfModel.xv) 
      (ms : list module) (p : port),
    single look estimator_ok P cfg = Ok ms ->
    In p measured ->
    (publishes ms p <-> (topic p = "/serpent/registration/transform" -> with_registration P)) /\
    (forall q : port, publishes ms q -> topic q = topic p -> kind q = kind p).
Proof. exact (@metrics_fed). Qed.
Theorem C102_recorded_available :
  forall (look : string -> string -> Z -> res Geo.iso) (estimator_ok : robust -> bool) (P : params) (cfg : BfModel.xv) 
      (ms : list module) (t : string),
    single look estimator_ok P cfg = Ok ms ->
    In t recorded ->
    (exists k : msg, publishes ms {| topic := t; kind := k |}) <->
    In t ["/serpent/optimisation/odometry"; "/serpent/optimisation/imu_biases"; "/serpent/output/path"] \/
    t = "/serpent/registration/transform" /\ with_registration P \/
    t = "/serpent/stereo/statistics" /\ with_stereo P /\ on_ P "debug/stereo/publish_stats" false.
Proof. exact (@recorded_available). Qed.
Theorem C102_recorded_refuted :
  exists (P : params) (ms : list module),
      single BfExamples.no_tf any_estimator P robot = Ok ms /\
      with_stereo P /\ (exists t : string, In t recorded /\ ~ (exists k : msg, publishes ms {| topic := t; kind := k |})).
Proof. exact (@recorded_refuted). Qed.

(* C103 *)
Theorem C103_accepted_iff :
  forall (look : string -> string -> Z -> res Geo.iso) (estimator_ok : robust -> bool) (P : params) (cfg : BfModel.xv),
    (exists ms : list module, single look estimator_ok P cfg = Ok ms) <-> accepted look estimator_ok P cfg.
Proof. exact (@accepted_iff). Qed.
Theorem C103_split_same :
  forall (look : string -> string -> Z -> res Geo.iso) (estimator_ok : robust -> bool) (P : params) (cfg : BfModel.xv) (ms a b : list module),
    single look estimator_ok P cfg = Ok ms ->
    frontend_node look P cfg = Ok a -> backend_node look estimator_ok P cfg = Ok b -> Permutation ms (a ++ b).
Proof. exact (@split_same). Qed.
Theorem C103_split_starts :
  forall (look : string -> string -> Z -> res Geo.iso) (estimator_ok : robust -> bool) (P : params) (cfg : BfModel.xv),
    (exists ms : list module, single look estimator_ok P cfg = Ok ms) <->
    (exists a : list module, frontend_node look P cfg = Ok a) /\ (exists b : list module, backend_node look estimator_ok P cfg = Ok b).
Proof. exact (@split_starts). Qed.
Theorem C103_stereo_alone :
  forall (look : string -> string -> Z -> res Geo.iso) (P : params) (cfg : BfModel.xv) (ms : list module) (p : port),
    stereo_node look P cfg = Ok ms ->
    reads ms p <->
    In p
      [{| topic := "/serpent/stereo/left/image"; kind := Image |}; {| topic := "/serpent/stereo/right/image"; kind := Image |};
       {| topic := "/serpent/stereo/left/camera_info"; kind := CameraInfo |};
       {| topic := "/serpent/stereo/right/camera_info"; kind := CameraInfo |}].
Proof. exact (@stereo_alone). Qed.
Theorem C103_stereo_alone_starts :
  forall (look : string -> string -> Z -> res Geo.iso) (P : params) (cfg : BfModel.xv),
    can (stereo_node look P cfg) <->
    (exists b : BfModel.frames, BfModel.load look cfg = Ok b /\ can (BfModel.static_transforms look b)) /\
    can (stereo_config P) /\
    odd_size (p_int P "stereo_tracking/stereo_keypoint_matcher/window_size/width" 3) /\
    odd_size (p_int P "stereo_tracking/stereo_keypoint_matcher/window_size/height" 3) /\
    (0 < p_num P "stereo_tracking/stereo_keypoint_matcher/ratio" (1 # 2) < 1)%Q /\ 1 <= p_int P "threads" 4.
Proof. exact (@stereo_alone_starts). Qed.
Theorem C103_unknown_estimator_refuted :
  exists (P : string -> option pval) (ms : list module),
      P "stereo_factors/robust/type" = Some (VStr "none") /\
      with_stereo P /\
      on_ P "stereo_factors/robust/enabled" true /\ robust_model P = Ok None /\ single BfExamples.no_tf any_estimator P robot = Ok ms.
Proof. exact (@unknown_estimator_refuted). Qed.

Print Assumptions C102_fed.
Print Assumptions C102_one_publisher.
Print Assumptions C102_inputs_read.
Print Assumptions C102_outputs_published.
Print Assumptions C102_outputs_only.
Print Assumptions C102_published_read.
Print Assumptions C102_same_points.
Print Assumptions C102_services.
Print Assumptions C102_metrics_fed.
Print Assumptions C102_recorded_available.
Print Assumptions C102_recorded_refuted.
Print Assumptions C103_accepted_iff.
Print Assumptions C103_split_same.
Print Assumptions C103_split_starts.
Print Assumptions C103_stereo_alone.
Print Assumptions C103_stereo_alone_starts.
Print Assumptions C103_unknown_estimator_refuted.
