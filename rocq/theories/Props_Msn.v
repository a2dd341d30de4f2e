(* Property C124: launching a shipped platform. Proofs in MsnProofs.v, MsnMore.v; cases in MsnExamples.v. *)
From Coq Require Import String List ZArith QArith Bool Reals.
From Verif Require Import Base CfgModel WrModel WrSpec MsnData MsnModel MsnSpec MsnProofs MsnMore MsnExamples WrExamples.
From Verif Require Import Interp Geo EgModel.
From Verif Require BfModel BfSpec BfExamples PlSpec BeModel FoModel.
Import ListNotations.
Open Scope string_scope.
Open Scope list_scope.

(* C124 *)
Theorem C124_parameters_laid_over :
  forall (pl : platform) (m : list (string * pval)) (n : Z) (sv : server),
    overlaid (m ++ pl_files pl ++ [("threads", VInt n)]) (sv_flat sv) (sv_flat (launch pl m n sv)).
Proof. exact (@launch_overlaid). Qed.
Theorem C124_frames_laid_over :
  forall (pl : platform) (m : list (string * pval)) (n : Z) (sv : server),
    (forall (a : list (list string * BfModel.xv)) (p : list string) (v : BfModel.xv) (b : list (list string * BfModel.xv)),
     pl_robot pl = a ++ (p, v) :: b ->
     (forall (p' : list string) (v' : BfModel.xv), In (p', v') b -> apart p' p) -> value_at p (sv_frames (launch pl m n sv)) = Some v) /\
    (forall q : list string,
     (forall (p : list string) (v : BfModel.xv), In (p, v) (pl_robot pl) -> apart p q) ->
     value_at q (sv_frames (launch pl m n sv)) = value_at q (sv_frames sv)).
Proof. exact (@launch_tree). Qed.
Theorem C124_starts :
  forall (look : string -> string -> Z -> res iso) (estimator_ok : robust -> bool),
    huber_accepted estimator_ok ->
    forall (pl : platform) (m : list (string * pval)) (n : Z) (sv : server) (r s b : bool),
    In pl platforms ->
    In m (pl_missions pl) ->
    (1 <= n)%Z ->
    used pl sv ->
    (s = true -> flow_unset (sv_flat sv)) ->
    can (single look estimator_ok (switched r s b (sv_flat (launch pl m n sv))) (sv_frames (launch pl m n sv))).
Proof. exact (@platform_starts). Qed.
Theorem C124_starts_as_shipped :
  forall (look : string -> string -> Z -> res iso) (estimator_ok : robust -> bool),
    huber_accepted estimator_ok ->
    forall (pl : platform) (m : list (string * pval)) (n : Z) (sv : server),
    In pl platforms ->
    In m (pl_missions pl) ->
    (1 <= n)%Z ->
    used pl sv ->
    can (single look estimator_ok (sv_flat (launch pl m n sv)) (sv_frames (launch pl m n sv))) /\
    with_registration (sv_flat (launch pl m n sv)) /\ ~ with_stereo (sv_flat (launch pl m n sv)) /\ ~ with_barometer (sv_flat (launch pl m n sv)).
Proof. exact (@platform_starts_as_is). Qed.
Theorem C124_threads_suffice :
  forall (pl : platform) (m : list (string * pval)) (sv : server) (c : BeModel.config),
    In pl platforms ->
    In m (pl_missions pl) ->
    BeModel.c_pool c = Z.to_nat (p_int (sv_flat (launch pl m default_threads sv)) "threads" 4) -> (PlSpec.sleepers c < BeModel.c_pool c)%nat.
Proof. exact (@platform_threads). Qed.
Theorem C124_launch_again :
  forall (pl : platform) (m : list (string * pval)) (n : Z) (h : list (list (string * pval) * Z)) (sv : server),
    In pl [snowboard; ue4] /\ In m (pl_missions pl) \/ pl = simulator /\ In m [simulator_surface_ellipse_1; simulator_surface_ellipse_2] ->
    used pl sv ->
    (forall (m' : list (string * pval)) (n' : Z), In (m', n') h -> In m' (pl_missions pl)) ->
    (forall k : string, sv_flat (launch pl m n (relaunched pl h sv)) k = sv_flat (launch pl m n sv) k) /\
    sv_frames (launch pl m n (relaunched pl h sv)) = sv_frames (launch pl m n sv).
Proof. exact (@platform_again). Qed.
Theorem C124_lidar_and_imu :
  forall (look : string -> string -> Z -> res iso) (pl : platform) (f : string) (t : vec3) (q : quat) (m : list (string * pval)) 
      (n : Z) (sv : server),
    In (pl, f, t, q) filed ->
    used pl sv ->
    exists (b : BfModel.frames) (T : iso),
      BfModel.load look (sv_frames (launch pl m n sv)) = Ok b /\ BfModel.body_to_frame look b f 0 = Ok T /\ tr T = t /\ BfSpec.turns q (lin T).
Proof. exact (@frames_as_filed). Qed.
Theorem C124_snowboard_left_camera :
  forall (look : string -> string -> Z -> res iso) (m : list (string * pval)) (n : Z) (sv : server),
    In m (pl_missions snowboard) ->
    used snowboard sv ->
    exists b : BfModel.frames,
      BfModel.load look (sv_frames (launch snowboard m n sv)) = Ok b /\
      right_of look (sv_flat (launch snowboard m n sv)) b "left_stereo_right_cam" (11 / 200).
Proof. exact (@snowboard_left_camera). Qed.
Theorem C124_simulator_left_camera :
  forall (look : string -> string -> Z -> res iso) (m : list (string * pval)) (n : Z) (sv : server),
    In m (pl_missions simulator) ->
    used simulator sv ->
    exists b : BfModel.frames,
      BfModel.load look (sv_frames (launch simulator m n sv)) = Ok b /\
      right_of look (sv_flat (launch simulator m n sv)) b "camera_front_right" (1 / 10).
Proof. exact (@simulator_left_camera). Qed.
Theorem C124_velocity_refuted :
  exists (m0 m : list (string * pval)) (n : Z),
      In m0 (pl_missions simulator) /\
      In m (pl_missions simulator) /\
      (forall look : string -> string -> Z -> res iso,
       exists b : BfModel.frames,
         BfModel.load look (sv_frames (launch simulator m n (launch simulator m0 n empty))) = Ok b /\
         (forall (map_frame : string) (time : Z) (imu : imu),
          i_ori imu = (0, 0, 0, 0) ->
          exists msg : Z * string * string * pose * twist,
            FoModel.first_state look b map_frame (sv_flat (launch simulator m n (launch simulator m0 n empty))) time imu = Ok msg)) /\
      (forall (look : string -> string -> Z -> res iso) (b : BfModel.frames) (map_frame : string) (time : Z) (imu : imu),
       (forall msg : Z * string * string * pose * twist,
        FoModel.first_state look b map_frame (sv_flat (launch simulator m n empty)) time imu = Ok msg -> t_lin (snd msg) = v0) /\
       (forall msg : Z * string * string * pose * twist,
        FoModel.first_state look b map_frame (sv_flat (launch simulator m n (launch simulator m0 n empty))) time imu = Ok msg ->
        exists v : R, t_lin (snd msg) = (0, v, 0) /\ 3 / 2 < v)).
Proof. exact (@velocity_refuted). Qed.
Theorem C124_frames_refuted :
  forall look : string -> string -> Z -> res iso,
    exists (n : Z) (sv : server),
      sv = launch snowboard snowboard_ice_rink n empty /\
      (exists b : BfModel.frames,
         BfModel.load look (sv_frames (launch simulator simulator_surface_ellipse_1 n empty)) = Ok b /\
         BfModel.body_to_frame look b "imu" 0 = Ok iid) /\
      (exists (b : BfModel.frames) (T : iso),
         BfModel.load look (sv_frames (launch simulator simulator_surface_ellipse_1 n sv)) = Ok b /\
         BfModel.body_to_frame look b "imu" 0 = Ok T /\ (forall x y z : R, iapp T (x, y, z) = (- x, y, - z))).
Proof. exact (@frames_refuted). Qed.
Theorem C124_ue4_left_camera_refuted :
  forall (look : string -> string -> Z -> res iso) (m : list (string * pval)) (n : Z) (sv : server),
    In m (pl_missions ue4) ->
    used ue4 sv ->
    exists b : BfModel.frames,
      BfModel.load look (sv_frames (launch ue4 m n sv)) = Ok b /\
      BfModel.frame_to_frame look b "left_cam" "right_cam" 0 = Ok {| lin := mI; tr := (1 / 10, 0, 0) |} /\
      right_of look (sv_flat (launch ue4 m n sv)) b "right_cam" (1 / 20) /\ right_of look (sv_flat (launch ue4 m n sv)) b "left_cam" (- (1 / 20)).
Proof. exact (@ue4_left_camera_refuted). Qed.
Theorem C124_flow_refuted :
  exists L : params,
      ~ flow_unset L /\
      (forall (pl : platform) (m : list (string * pval)) (n : Z),
       In pl platforms ->
       In m (pl_missions pl) ->
       ~
       can
         (single BfExamples.no_tf any_estimator
            (switched true true true (sv_flat (launch pl m n {| sv_flat := L; sv_frames := BfModel.XInvalid |})))
            (sv_frames (launch pl m n {| sv_flat := L; sv_frames := BfModel.XInvalid |})))).
Proof. exact (@flow_refuted). Qed.

Print Assumptions C124_parameters_laid_over.
Print Assumptions C124_frames_laid_over.
Print Assumptions C124_starts.
Print Assumptions C124_starts_as_shipped.
Print Assumptions C124_threads_suffice.
Print Assumptions C124_launch_again.
Print Assumptions C124_lidar_and_imu.
Print Assumptions C124_snowboard_left_camera.
Print Assumptions C124_simulator_left_camera.
Print Assumptions C124_velocity_refuted.
Print Assumptions C124_frames_refuted.
Print Assumptions C124_ue4_left_camera_refuted.
Print Assumptions C124_flow_refuted.
