(* Navigation and IMU tools: navigation_tools/src/combine_transforms.cpp (CT) and combine_transforms.hpp, integrate_imu.cpp (II), odometry_to_tf.cpp (OT);
   imu_tools/src/imu_transform.cpp (IT), imu_analysis.cpp (IA); serpent/src/utils/ros_conversion.cpp (RC); eigen_gtsam/src/geometry.cpp.
   double is read as R; frame names are numbers, 0 is the empty string. *)
From Coq Require Import ZArith Reals List Bool String.
From Verif Require Import Base Mx Interp Geo EgModel CvModel MsModel.
Import ListNotations.
Open Scope R_scope.

Definition NONE : nat := 0. Definition MAP : nat := 1. Definition BODY : nat := 2.
(* a default-constructed message has 36 zeros *)
Definition zeros (n : nat) : list (option R) := repeat (Some 0) n.
Definition blank_pose : mposec := mkMPC (mkMP v0 (0, 0, 0, 0)) (zeros 36).
Definition blank_twist : mtwistc := mkMTC v0 v0 (zeros 36).
Definition blank_odom : modom := mkMO (mkH 0 0 NONE) NONE blank_pose blank_twist.
(* finite numbers as values of messages *)
Definition some2 (m : mx) : cmat := fun i j => Some (m i j).
Definition rodom_of (o : odom) : rodom :=
  mkRO (o_time o) (o_frame o) (o_child o) (mkRP (p_pos (o_pose o)) (p_ori (o_pose o)) (some2 (p_cov (o_pose o)))) (mkRT (t_lin (o_twist o)) (t_ang (o_twist o)) (some2 (t_cov (o_twist o)))).

(* ---- combining transforms ---- *)
Inductive kind := KTransform | KPose | KPoseCov.
(* CT 16-28: which message type is subscribed to; None: none at all *)
Definition subscribed (transform_type : option string) : option kind :=
  let s := match transform_type with Some s => s | None => "TransformStamped"%string end in
  if String.eqb s "TransformStamped" then Some KTransform else if String.eqb s "PoseStamped" then Some KPose else if String.eqb s "PoseWithCovarianceStamped" then Some KPoseCov else None.
(* TransformStamped, PoseStamped or PoseWithCovarianceStamped; the first two have no covariance *)
Record increment := mkInc { in_header : mheader; in_pose : mpose; in_cov : list (option R) }.
(* combine_transforms.hpp 41-48; geometry_msgs.cpp 21-24, 42-45, 92-95 *)
Definition increment_value (k : kind) (m : increment) : res (Z * rpose) :=
  let fresh := mkRP v0 qI (fun _ _ => Some 0) in
  match k with
  | KPoseCov => rbind (posec_from_ros (mkMPC (in_pose m) (in_cov m)) fresh) (fun p => Ok (h_stamp (in_header m), p))
  | _ => Ok (h_stamp (in_header m), pose_from_ros (in_pose m) fresh)
  end.
Record path := mkPath { pa_header : mheader; pa_poses : list (mheader * mpose) }.
Record cstate := mkCS { cs_odom : odom; cs_path : path }.
(* odometry.hpp 12-14, pose.hpp, twist.hpp defaults; CT 31 *)
Definition cstate0 : cstate := mkCS (mkOdom (mkPose v0 qI (fun _ _ => 0)) (mkTwist v0 v0 (fun _ _ => 0)) 0 NONE NONE) (mkPath (mkH 0 0 MAP) []).
(* CT 34-47; the two messages that are published *)
Definition combine (s : cstate) (stamp : Z) (t : rpose) : res (cstate * (modom * path)) :=
  let o := apply_odometry (cs_odom s) (mkPose (rp_pos t) (rp_ori t) (fun _ _ => 0)) stamp in
  rbind (odom_to_ros blank_odom (rodom_of o)) (fun msg =>
  let pose := (mkH 0 (o_time o) NONE, pose_to_ros (ro_pose (rodom_of o))) in
  let p := mkPath (mkH (h_seq (pa_header (cs_path s))) stamp (h_frame (pa_header (cs_path s)))) (pa_poses (cs_path s) ++ [pose]) in
  Ok (mkCS o p, (msg, p))).
Fixpoint combine_all (k : kind) (s : cstate) (l : list increment) : res (cstate * list (modom * path)) :=
  match l with
  | [] => Ok (s, [])
  | m :: l => rbind (increment_value k m) (fun v => rbind (combine s (fst v) (snd v)) (fun r => rbind (combine_all k (fst r) l) (fun r' => Ok (fst r', snd r :: snd r'))))
  end.

(* ---- odometry to tf: OT 10-20 ---- *)
Record tfmsg := mkTf { tf_header : mheader; tf_child : nat; tf_pose : mpose }.
Definition odometry_tf (m : modom) : tfmsg :=
  let '(x, y, z) := mp_pos (mpc_pose (mo_pose m)) in mkTf (mo_header m) (mo_child m) (mkMP (x, y, z) (mp_ori (mpc_pose (mo_pose m)))).

(* ---- integrating IMU messages ---- *)
(* gtsam::NavState *)
Record nav := mkNav { n_rot : mat3; n_pos : vec3; n_vel : vec3 }.
Section Integrate.
(* gtsam::PreintegratedCombinedMeasurements with its parameters and bias: constructed, integrateMeasurement(acc, gyro, dt), predict, preintMeasCov *)
Variable pim : Type.
(* whether integrateMeasurement throws for a step that is not positive.  README 91 names GTSAM 4.0.3 and 4.2.0; neither source is at hand, so both behaviours are covered *)
Variable strict : bool.
Variable pim_add : pim -> vec3 -> vec3 -> R -> pim.
Variable pim_predict : pim -> nav -> nav.
Variable pim_cov : pim -> mx.
(* body_frames.frame_to_body("imu") and the position and velocity parameters, II 99-103 *)
Variable imu_body : iso.
Variable position velocity : vec3.
Record istate := mkIS { is_time : Z; is_pim : pim; is_initial : nav; is_path : path }.
(* Eigen isApprox with the zero quaternion, relative to the smaller norm: exactly the zero quaternion *)
Definition qzero_dec (q : quat) : {q = (0, 0, 0, 0)} + {q <> (0, 0, 0, 0)}.
Proof. repeat decide equality; apply Req_EM_T. Defined.
(* II 95-105 *)
Definition initial_state (ori : quat) : nav :=
  let q := if qzero_dec ori then qI else quat_of (mmul (qmat ori) (lin imu_body)) in mkNav (qmat q) position velocity.
(* II 66-74: the covariance of the pose, ordered rotation, position; of the velocities, ordered angular, linear *)
Definition corner (m : mx) (r c : nat) : mx := fun i j => m (r + i)%nat (c + j)%nat.
Definition velocity_cov (gyro : cmat) (m : mx) : cmat := fun i j =>
  if Nat.ltb i 3 then (if Nat.ltb j 3 then gyro i j else Some 0) else (if Nat.ltb j 3 then Some 0 else Some (corner m 6 6 (i - 3)%nat (j - 3)%nat)).
(* II 50-108.  toSec of the difference of two times; the conversion of a difference that does not fit ros::Duration is left out *)
Definition integrate (s : istate) (m : rimu) : res (istate * option (modom * path)) :=
  if Z.eqb (is_time s) 0 then Ok (mkIS (ri_time m) (is_pim s) (initial_state (ri_ori m)) (is_path s), None)
  else let dt := IZR (ri_time m - is_time s) / 1000000000 in
    if Req_EM_T dt 0 then Throw
    else if strict && (if Rlt_dec dt 0 then true else false) then Throw
    else let p := pim_add (is_pim s) (ri_a m) (ri_w m) dt in
      let st := pim_predict p (is_initial s) in
      rbind (cov_to_ros (zeros 36) (some2 (pim_cov p))) (fun pcov =>
      rbind (cov_to_ros (zeros 36) (velocity_cov (ri_wcov m) (pim_cov p))) (fun vcov =>
      let pose := mkMP (n_pos st) (quat_of (n_rot st)) in
      let od := mkMO (mkH 0 (ri_time m) MAP) BODY (mkMPC pose pcov) (mkMTC (n_vel st) (ri_w m) vcov) in
      let pa := mkPath (mkH (h_seq (pa_header (is_path s))) (ri_time m) (h_frame (pa_header (is_path s)))) (pa_poses (is_path s) ++ [(mkH 0 (ri_time m) BODY, pose)]) in
      Ok (mkIS (ri_time m) p (is_initial s) pa, Some (od, pa)))).
Fixpoint integrate_all (s : istate) (l : list rimu) : res (istate * list (modom * path)) :=
  match l with
  | [] => Ok (s, [])
  | m :: l => rbind (integrate s m) (fun r => rbind (integrate_all (fst r) l) (fun r' => Ok (fst r', match snd r with Some o => o :: snd r' | None => snd r' end)))
  end.
(* II 9-11, 46-47 *)
Definition istate0 (p : pim) : istate := mkIS 0 p (mkNav mI v0 v0) (mkPath (mkH 0 0 MAP) []).
End Integrate.
Arguments mkIS {pim}. Arguments is_time {pim}. Arguments is_pim {pim}. Arguments is_initial {pim}. Arguments is_path {pim}.

(* ---- IMU tools ---- *)
(* IT 15-27, on the value of the message; rotation * matrix turns the columns.  An entry that is not finite makes its column so *)
Definition turn_columns (r : mat3) (c : cmat) : cmat := fun i j =>
  match c 0%nat j, c 1%nat j, c 2%nat j with Some x, Some y, Some z => Some (vget (mapply r (x, y, z)) i) | _, _, _ => None end.
Definition imu_transform (rotation : quat) (overwrite : bool) (new_frame : nat) (s : rimu) : rimu :=
  mkRI (ri_time s) (if overwrite then new_frame else ri_frame s) (qmul rotation (ri_ori s)) (ri_w s) (ri_a s) (turn_columns (qmat rotation) (ri_ocov s)) (ri_wcov s) (ri_acov s).
(* IA 38-62: the transforms that are broadcast for a message *)
Record analysis := mkAn { an_fixed : nat; an_apply : bool; an_frame : nat; an_t : vec3; an_q : quat }.
Definition analyse (c : analysis) (m : mimu) : list tfmsg :=
  let h := mkH 0 (h_stamp (mi_header m)) (an_fixed c) in
  mkTf h (h_frame (mi_header m)) (mkMP v0 (mi_ori m)) ::
  (if an_apply c then [mkTf h (an_frame c) (mkMP (an_t c) (qmul (mi_ori m) (an_q c)))] else []).
(* IA 18-29: at() throws past the end *)
Definition analysis_params (t r : list R) : res (vec3 * quat) :=
  match t with
  | x :: y :: z :: _ => match r with a :: b :: c :: d :: e :: f :: g :: h :: i :: _ => Ok ((x, y, z), quat_of ((a, b, c), (d, e, f), (g, h, i))) | _ => Throw end
  | _ => Throw
  end.

(* ---- serpent messages: RC ---- *)
(* gtsam::imuBias::ConstantBias: accelerometer, gyroscope; serpent/ImuBiases *)
Record bias := mkBias { b_acc : vec3; b_gyr : vec3 }.
Record mbias := mkMB { mb_header : mheader; mb_acc : vec3; mb_gyr : vec3 }.
(* RC 7-10, 23-29 *)
Definition bias_from_ros (m : mbias) : bias := mkBias (mb_acc m) (mb_gyr m).
Definition bias_to_ros (m : mbias) (b : bias) (stamp : Z) (frame : nat) : mbias := mkMB (mkH (h_seq (mb_header m)) stamp frame) (b_acc b) (b_gyr b).
(* RC 12-16, 31-35: the elements are appended *)
Definition blank_imu : mimu := mkMI (mkH 0 0 NONE) (0, 0, 0, 0) v0 v0 (zeros 9) (zeros 9) (zeros 9).
Definition fresh_imu : rimu := mkRI 0 NONE qI v0 v0 (fun _ _ => Some 0) (fun _ _ => Some 0) (fun _ _ => Some 0).
Fixpoint imus_from_ros (l : list mimu) (target : list rimu) : res (list rimu) :=
  match l with [] => Ok target | m :: l => rbind (imu_from_ros m fresh_imu) (fun s => imus_from_ros l (target ++ [s])) end.
Fixpoint imus_to_ros (target : list mimu) (l : list rimu) : res (list mimu) :=
  match l with [] => Ok target | s :: l => rbind (imu_to_ros blank_imu s) (fun m => imus_to_ros (target ++ [m]) l) end.
(* RC 18-21, 37-40: gtsam::Pose3 as a rigid motion; gtsam's Rot3 keeps a matrix *)
Definition pose3_from_ros (m : mpose) : iso := to_transform (mp_pos m) (mp_ori m).
Definition pose3_to_ros (p : iso) : mpose := mkMP (tr p) (quat_of (lin p)).
