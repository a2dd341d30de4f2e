(* What the front end puts into its messages: live odometry, pose of base_link, first state, motion used for deskewing.
   serpent/src/front_end/frontend.cpp (FE), serpent/src/back_end/optimisation.cpp (OP), serpent/src/utils/utilities.cpp (UT),
   eigen_ros/src/imu.cpp (IM), pose.cpp, geometry_msgs.cpp.  double is read as R, times are nanoseconds.  Locks and waiting are in FeModel. *)
From Coq Require Import ZArith QArith Reals Qreals List Bool String.
From Verif Require Import Base Mx Interp Geo EgModel CvModel MsModel NvModel BfModel PcGeom.
From Verif Require CfgModel.
Import ListNotations.
Open Scope R_scope.

(* nav_msgs/Odometry as read by eigen_ros::from_ros (C46) *)
Record odo := mkOdo { od_time : Z; od_frame : string; od_child : string; od_pose : rpose; od_twist : rtwist }.
(* geometry_msgs/TransformStamped, geometry_msgs/PoseWithCovarianceStamped, nav_msgs/Odometry as published *)
Record tfout := mkTfOut { tf_time : Z; tf_parent : string; tf_child : string; tf_pose : mpose }.
Record poseout := mkPoseOut { po_time : Z; po_frame : string; po_pose : mposec }.
Record odoout := mkOdoOut { oo_time : Z; oo_frame : string; oo_child : string; oo_pose : mposec; oo_twist : mtwistc }.
Inductive msg := MTf (m : tfout) | MPose (m : poseout) | MRate (m : odoout).

Definition seconds (ns : Z) : R := IZR ns / 1000000000.
Definition nav_iso (s : nav) : iso := mkIso (n_rot s) (n_pos s).

Section Front.
Variable look : string -> string -> Z -> res iso.
Variable b : frames.                       (* body_frames, FE 40 *)
Variable map_frame : string.               (* map_frame_id, FE 67 *)

(* ---- pose of base_link: FE 278-300.  An exception is caught and reported; what was sent before it stays sent ---- *)
Definition base_link_pose (o : odo) : res mpose :=
  if String.eqb (body_frame b) "base_link" then Ok (pose_to_ros (od_pose o))
  else rbind (body_to_frame look b "base_link" (od_time o)) (fun t =>
       (* pose.cpp 42-45: the covariance of the result is not part of the transform message *)
       let p := apply_transform (mkPose (rp_pos (od_pose o)) (rp_ori (od_pose o)) (fun _ _ => 0)) t in Ok (mkMP (p_pos p) (p_ori p))).
Definition base_link_messages (o : odo) : res (list msg) :=
  match base_link_pose o with
  | UB => UB
  | Throw => Ok []
  | Ok p =>
      match frame_id b "base_link" with
      | UB => UB
      | Throw => Ok []
      | Ok id =>
          let tf := MTf (mkTfOut (od_time o) (od_frame o) id p) in                 (* FE 288-291 *)
          match posec_to_ros (mkMPC (mkMP v0 (0, 0, 0, 0)) (zeros 36)) (od_pose o) with   (* FE 294-297: of world_odometry *)
          | UB => UB
          | Throw => Ok [tf]
          | Ok c => Ok [tf; MPose (mkPoseOut (od_time o) (od_frame o) c)]
          end
      end
  end.

(* ---- live odometry: FE 204-255, 257-266, 268-327 ---- *)
(* gtsam::PreintegratedCombinedMeasurements: created from the covariances of accelerometer and gyroscope (refused unless valid, UT 91-101) and
   a bias; integrateMeasurement(acceleration, angular velocity, dt); predict(state, bias) *)
Variable pim : Type.
Variable pim_new : cmat -> cmat -> bias -> res pim.
Variable pim_add : pim -> vec3 -> vec3 -> R -> pim.
Variable pim_predict : pim -> nav -> bias -> nav.
Variable overwrite : option (cmat * cmat).   (* imu/noise/overwrite: covariances of accelerometer and gyroscope, FE 116-124 *)

Record live := mkLive { lv_buf : list rimu; lv_last : Z; lv_state : nav; lv_bias : bias; lv_pim : option pim }.
(* FE 39-42 and the default constructors *)
Definition live0 : live := mkLive [] 0 (mkNav mI v0 v0) (mkBias v0 v0) None.

(* FE 207-210 *)
Definition received (m : rimu) : rimu :=
  match overwrite with Some (a, g) => mkRI (ri_time m) (ri_frame m) (ri_ori m) (ri_w m) (ri_a m) (ri_ocov m) g a | None => m end.
(* integrateMeasurement refuses dt <= 0 *)
Definition add_measurement (p : pim) (m : rimu) (ns : Z) : res pim := if Z.leb ns 0 then Throw else Ok (pim_add p (ri_a m) (ri_w m) (seconds ns)).
(* FE 204-255 *)
Definition on_imu (m0 : rimu) (s : live) : res (live * list msg) :=
  let m := received m0 in
  match lv_pim s with
  | None => Ok (mkLive (lv_buf s ++ [m]) (ri_time m) (lv_state s) (lv_bias s) None, [])
  | Some p =>
      rbind (add_measurement p m (ri_time m - lv_last s)) (fun p' =>
      let st := pim_predict p' (lv_state s) (lv_bias s) in
      rbind (body_to_frame look b "imu" 0) (fun t =>
      let w := mapply (lin t) (vadd (ri_w m) (b_gyr (lv_bias s))) in                  (* FE 238-239 *)
      rbind (body_frame_id b) (fun child =>
      let out := mkOdoOut (ri_time m) map_frame child (mkMPC (mkMP (n_pos st) (quat_of (n_rot st))) (zeros 36)) (mkMTC (n_vel st) w (zeros 36)) in
      Ok (mkLive (lv_buf s ++ [m]) (ri_time m) (lv_state s) (lv_bias s) (Some p'), [MRate out]))))
  end.

(* FE 263-265 *)
Fixpoint first_not_before (t : Z) (prev : rimu) (l : list rimu) : res (rimu * rimu) :=
  match l with [] => Throw | x :: l => if Z.ltb (ri_time x) t then first_not_before t x l else Ok (prev, x) end.
Definition around (t : Z) (l : list rimu) : res (rimu * rimu) :=
  match l with
  | x :: (_ :: _) as l' => if Z.ltb t (ri_time x) || Z.ltb (ri_time (last l' x)) t then Throw else first_not_before t x l'
  | _ => Throw
  end.
(* IM 70-96: whose covariances the interpolated message has; (t - t1) / (t2 - t1) <= 0.5 *)
Definition nearer (t : Z) (m1 m2 : rimu) : rimu := if Z.eqb (ri_time m1) (ri_time m2) then m1 else if Z.leb (2 * (t - ri_time m1)) (ri_time m2 - ri_time m1) then m1 else m2.
(* FE 318-326 *)
Fixpoint replay (last : Z) (l : list rimu) (p : pim) : res (pim * Z) :=
  match l with
  | [] => Ok (p, last)
  | m :: l => if Z.ltb last (ri_time m) then rbind (add_measurement p m (ri_time m - last)) (replay (ri_time m) l) else replay last l p
  end.
(* FE 273-276 *)
Definition world_state (o : odo) : nav := mkNav (qmat (rp_ori (od_pose o))) (rp_pos (od_pose o)) (rt_lin (od_twist o)).
(* FE 268-327; the two messages have the same stamp (exact time synchroniser, FE 53-55) *)
Definition on_odometry (o : odo) (bi : bias) (s : live) : res (live * list msg) :=
  rbind (base_link_messages o) (fun out =>
  rbind (around (od_time o) (lv_buf s)) (fun '(m1, m2) =>
  let m := nearer (od_time o) m1 m2 in
  rbind (pim_new (ri_acov m) (ri_wcov m) bi) (fun p =>
  rbind (replay (od_time o) (lv_buf s) p) (fun '(p', last) =>
  Ok (mkLive (lv_buf s) last (world_state o) bi (Some p'), out))))).
(* UT 15-19, called at FE 400 *)
Fixpoint drop_old (t : Z) (l : list rimu) : list rimu := match l with [] => [] | m :: r => if Z.ltb (ri_time m) t then drop_old t r else l end.

Inductive event := EImu (m : rimu) | EOdometry (o : odo) (bi : bias) | ETrim (t : Z).
Definition lstep (s : live) (e : event) : res (live * list msg) :=
  match e with
  | EImu m => on_imu m s
  | EOdometry o bi => on_odometry o bi s
  | ETrim t => Ok (mkLive (drop_old t (lv_buf s)) (lv_last s) (lv_state s) (lv_bias s) (lv_pim s), [])
  end.
Fixpoint lrun (s : live) (l : list event) : res (live * list msg) :=
  match l with [] => Ok (s, []) | e :: l => rbind (lstep s e) (fun r => rbind (lrun (fst r) l) (fun r' => Ok (fst r', snd r ++ snd r'))) end.

(* ---- first state: FE 188-202, 412-441 ---- *)
(* Eigen::AngleAxisd(M_PI, UnitX) turned into a quaternion when multiplied *)
Definition half_turn_x : quat := (cos (PI / 2), sin (PI / 2) * 1, sin (PI / 2) * 0, sin (PI / 2) * 0).
Definition body_frame_orientation (P : CfgModel.params) (ori : quat) : res quat :=
  if qzero_dec ori then Ok qI
  else rbind (frame_to_body look b "imu" 0) (fun t =>
       let q := qmul ori (quat_of (lin t)) in
       Ok (if String.eqb (CfgModel.p_str P "imu/reference_frame" "NED") "NED" then qmul half_turn_x q else q)).
Definition real_param (P : CfgModel.params) (k : string) (d : Q) : R := Q2R (CfgModel.p_num P k d).
Definition prior (P : CfgModel.params) (k : string) : mat3 := let s := real_param P k (1 # 1000) in ((s * s, 0, 0), (0, s * s, 0), (0, 0, s * s)).
(* the message sent to the back end; `m` is the IMU message interpolated at `time` *)
Definition first_state (P : CfgModel.params) (time : Z) (m : imu) : res (Z * string * string * pose * twist) :=
  rbind (body_frame_orientation P (i_ori m)) (fun q =>
  rbind (body_frame_id b) (fun child =>
  let p := pose_of_blocks (real_param P "pose/position/x" 0, real_param P "pose/position/y" 0, real_param P "pose/position/z" 0) q (prior P "prior_noise/position") (prior P "prior_noise/rotation") in
  let v := (real_param P "velocity/linear/x" 0, real_param P "velocity/linear/y" 0, real_param P "velocity/linear/z" 0) in
  Ok (time, map_frame, child, p, twist_of_blocks v (i_w m) (prior P "prior_noise/linear_velocity") (i_wcov m)))).

(* ---- the motion of the lidar ---- *)
(* FE 490-504: motion over the sweep, as given to deskew *)
Definition skew_transform (translation rotation : bool) (start stop : nav) : res iso :=
  rbind (body_to_frame look b "lidar" 0) (fun t =>
  let k := change_relative_transform_frame (imul (iinv (nav_iso start)) (nav_iso stop)) t in
  Ok (mkIso (if rotation then lin k else mI) (if translation then tr k else v0))).
(* OP 441-447: motion between two states, as given to the registration *)
Definition guess_transform (before after : nav) : res iso :=
  rbind (frame_to_body look b "lidar" 0) (fun t => Ok (change_relative_transform_frame (imul (iinv (nav_iso before)) (nav_iso after)) t)).
(* pclpointcloud2_utilities.cpp 129-169: a point read at fraction x of the sweep, moved to fraction y *)
Definition deskewed (eps : R) (k : iso) (y x : R) (p : vec3) : vec3 :=
  iapp (imul (iinv (pose_at eps (tr k) (quat_of (lin k)) y)) (pose_at eps (tr k) (quat_of (lin k)) x)) p.
End Front.
Arguments mkLive {pim}. Arguments lv_buf {pim}. Arguments lv_last {pim}. Arguments lv_state {pim}. Arguments lv_bias {pim}. Arguments lv_pim {pim}.
