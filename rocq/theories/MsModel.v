(* Conversion between values and ROS messages.  eigen_ros/include/eigen_ros/eigen_ros.hpp (ER), std_msgs.hpp (SM),
   eigen_ros/src/geometry_msgs.cpp (GM), nav_msgs.cpp, sensor_msgs.cpp, statistics_msgs.cpp (SC), std_msgs.cpp, eigen_ros.cpp;
   serpent/include/serpent/front_end/lidar/registration-inl.hpp 201-221 (publish_refined_transform).
   Arrays are lists; an access outside of an array is UB.  Matrix entries are of any type (so non finite numbers are included). *)
From Coq Require Import ZArith Reals List Bool Lia.
From Verif Require Import Base Mx Interp Geo EgModel CvModel.
Import ListNotations.

Section arrays.
Context {X : Type}.
Notation mat := (nat -> nat -> X).
Fixpoint set_nth (l : list X) (k : nat) (x : X) : option (list X) :=
  match l, k with [], _ => None | _ :: l, O => Some (x :: l) | y :: l, S k => match set_nth l k x with Some l' => Some (y :: l') | None => None end end.
(* the double loop over rows and columns *)
Definition pairs (rows cols : nat) : list (nat * nat) := flat_map (fun r => map (fun c => (r, c)) (seq 0 cols)) (seq 0 rows).
(* msg[idx r c] = m(r, c) *)
Fixpoint store (idx : nat -> nat -> nat) (m : mat) (ps : list (nat * nat)) (arr : list X) : res (list X) :=
  match ps with [] => Ok arr | (r, c) :: ps => match set_nth arr (idx r c) (m r c) with Some arr' => store idx m ps arr' | None => UB end end.
(* m(r, c) = msg[idx r c] *)
Fixpoint load (idx : nat -> nat -> nat) (msg : list X) (ps : list (nat * nat)) (m : mat) : res mat :=
  match ps with
  | [] => Ok m
  | (r, c) :: ps => match nth_error msg (idx r c) with Some x => load idx msg ps (fun i j => if Nat.eqb i r && Nat.eqb j c then x else m i j) | None => UB end
  end.
Definition row_major (cols : nat) (r c : nat) : nat := (cols * r + c)%nat.
(* ER 19-26, 28-35: boost::array<_, Rows * Cols> *)
Definition array_from_ros (rows cols : nat) (msg : list X) (m : mat) : res mat := load (row_major cols) msg (pairs rows cols) m.
Definition array_to_ros (rows cols : nat) (msg : list X) (m : mat) : res (list X) := store (row_major cols) m (pairs rows cols) msg.
(* std::vector::resize with default value d *)
Definition resize (d : X) (l : list X) (n : nat) : list X := firstn n l ++ repeat d (n - length l).
(* ER 37-51 *)
Definition vector_from_ros (rows cols : nat) (msg : list X) (m : mat) : res mat :=
  if negb (Nat.eqb (length msg) (rows * cols)) then Throw else load (row_major cols) msg (pairs rows cols) m.
(* ER 53-63 *)
Definition vector_to_ros (d : X) (rows cols : nat) (msg : list X) (m : mat) : res (list X) :=
  store (row_major cols) m (pairs rows cols) (resize d msg (rows * cols)).

(* std_msgs/Float64MultiArray without the labels: dimensions are (size, stride), uint32 *)
Record multi := mkMulti { ma_dims : list (nat * Z); ma_offset : Z; ma_data : list X }.
Definition u32 : Z := 4294967296.
(* SM 23-35; the index is computed in uint32 *)
Definition multi_index (msg : multi) (stride : Z) (r c : nat) : nat := Z.to_nat ((ma_offset msg + stride * Z.of_nat r + Z.of_nat c) mod u32).
Definition multi_from_ros (rows cols : nat) (msg : multi) (m : mat) : res mat :=
  match ma_dims msg with
  | [(s0, _); (s1, stride)] => if Nat.eqb s0 rows && Nat.eqb s1 cols then load (multi_index msg stride) (ma_data msg) (pairs s0 s1) m else Throw
  | _ => Throw
  end.
(* SM 37-59; size, rows and cols are int: larger matrices are taken as UB (index overflow).  The dimensions are appended. *)
Definition multi_to_ros (d : X) (rows cols : nat) (msg : multi) (m : mat) : res multi :=
  if Z.leb 2147483648 (Z.of_nat rows * Z.of_nat cols) || Z.leb 2147483648 (Z.of_nat rows) || Z.leb 2147483648 (Z.of_nat cols) then UB
  else rbind (store (fun r c => (r * cols + c)%nat) m (pairs rows cols) (resize d (ma_data msg) (rows * cols))) (fun data =>
    Ok (mkMulti (ma_dims msg ++ [(rows, Z.of_nat (rows * cols)); (cols, Z.of_nat cols)]) 0 data)).

(* statistics_msgs/Covariance; SC 7-10, 29-36 (the float32 variants are the same code) *)
Record statcov := mkStat { sc_dim : nat; sc_matrix : list X }.
Definition stat_from_ros (msg : statcov) (m : mat) : res (nat * nat * mat) :=
  rbind (vector_from_ros (sc_dim msg) (sc_dim msg) (sc_matrix msg) m) (fun m' => Ok (sc_dim msg, sc_dim msg, m')).
Definition stat_to_ros (d : X) (rows cols : nat) (msg : statcov) (m : mat) : res statcov :=
  if negb (Nat.eqb rows cols) then Throw else rbind (vector_to_ros d rows cols (sc_matrix msg) m) (fun a => Ok (mkStat rows a)).
(* eigen_ros.cpp 5-14: at() throws past the end *)
Definition matrix3d_from_param (v : list X) (m : mat) : res mat := if Nat.ltb (length v) 9 then Throw else load (row_major 3) v (pairs 3 3) m.
End arrays.
Arguments multi : clear implicits.
Arguments statcov : clear implicits.

(* poses, twists and odometry whose covariance entries may be non finite *)
Notation cmat := (nat -> nat -> option R).
Record rpose := mkRP { rp_pos : vec3; rp_ori : quat; rp_cov : cmat }.
Record rtwist := mkRT { rt_lin : vec3; rt_ang : vec3; rt_cov : cmat }.
Record rodom := mkRO { ro_time : Z; ro_frame : nat; ro_child : nat; ro_pose : rpose; ro_twist : rtwist }.
(* geometry_msgs/Pose (position, orientation), PoseWithCovariance, TwistWithCovariance; nav_msgs/Odometry *)
Record mpose := mkMP { mp_pos : vec3; mp_ori : quat }.
Record mposec := mkMPC { mpc_pose : mpose; mpc_cov : list (option R) }.
Record mtwistc := mkMTC { mtc_lin : vec3; mtc_ang : vec3; mtc_cov : list (option R) }.
Record mheader := mkH { h_seq : Z; h_stamp : Z; h_frame : nat }.
Record modom := mkMO { mo_header : mheader; mo_child : nat; mo_pose : mposec; mo_twist : mtwistc }.

(* GM 52-60: covariance of the target is not touched *)
Definition pose_from_ros (msg : mpose) (p : rpose) : rpose := mkRP (mp_pos msg) (mp_ori msg) (rp_cov p).
Definition pose_to_ros (p : rpose) : mpose := mkMP (rp_pos p) (rp_ori p).
Definition cov6 (c : cmat) : dmat := mkD 6 6 c.
(* read 36 numbers, then reorder *)
Definition cov_from_ros (msg : list (option R)) (c : cmat) : res cmat := rbind (array_from_ros 6 6 msg c) (fun m => rbind (reorder true (cov6 m) 3) (fun d => Ok (d_at d))).
Definition cov_to_ros (msg : list (option R)) (c : cmat) : res (list (option R)) := rbind (reorder true (cov6 c) 3) (fun d => array_to_ros 6 6 msg (d_at d)).
(* GM 31-40 *)
Definition posec_from_ros (msg : mposec) (p : rpose) : res rpose :=
  let p1 := pose_from_ros (mpc_pose msg) p in rbind (cov_from_ros (mpc_cov msg) (rp_cov p1)) (fun c => Ok (mkRP (rp_pos p1) (rp_ori p1) c)).
Definition posec_to_ros (msg : mposec) (p : rpose) : res mposec := rbind (cov_to_ros (mpc_cov msg) (rp_cov p)) (fun a => Ok (mkMPC (pose_to_ros p) a)).
(* GM 156-175 *)
Definition twistc_from_ros (msg : mtwistc) (t : rtwist) : res rtwist := rbind (cov_from_ros (mtc_cov msg) (rt_cov t)) (fun c => Ok (mkRT (mtc_lin msg) (mtc_ang msg) c)).
Definition twistc_to_ros (msg : mtwistc) (t : rtwist) : res mtwistc := rbind (cov_to_ros (mtc_cov msg) (rt_cov t)) (fun a => Ok (mkMTC (rt_lin t) (rt_ang t) a)).
(* nav_msgs.cpp 8-20, std_msgs.cpp 5-13: the sequence number of the header is not touched *)
Definition odom_from_ros (msg : modom) (o : rodom) : res rodom :=
  rbind (posec_from_ros (mo_pose msg) (ro_pose o)) (fun p => rbind (twistc_from_ros (mo_twist msg) (ro_twist o)) (fun t =>
    Ok (mkRO (h_stamp (mo_header msg)) (h_frame (mo_header msg)) (mo_child msg) p t))).
Definition odom_to_ros (msg : modom) (o : rodom) : res modom :=
  rbind (posec_to_ros (mo_pose msg) (ro_pose o)) (fun p => rbind (twistc_to_ros (mo_twist msg) (ro_twist o)) (fun t =>
    Ok (mkMO (mkH (h_seq (mo_header msg)) (ro_time o) (ro_frame o)) (ro_child o) p t))).

(* geometry_msgs/Transform and an isometry or 4x4 matrix, GM 62-80, 86-89, 111-129 *)
Definition iso_from_ros (msg : mpose) : iso := to_transform (mp_pos msg) (mp_ori msg).
Definition iso_to_ros (t : iso) : mpose := mkMP (tr t) (quat_of (lin t)).
Open Scope R_scope.
Definition mat4_from_ros (msg : mpose) : mx := fun i j =>
  if Nat.ltb i 3 && Nat.ltb j 3 then mget (qmat (mp_ori msg)) i j else if Nat.ltb i 3 && Nat.eqb j 3 then vget (mp_pos msg) i else idm i j.
Definition mat4_to_ros (m : mx) : mpose := mkMP (m 0%nat 3%nat, m 1%nat 3%nat, m 2%nat 3%nat) (quat_of (block3 m 0 0)).

(* sensor_msgs/Imu, sensor_msgs.cpp 9-27 *)
Record rimu := mkRI { ri_time : Z; ri_frame : nat; ri_ori : quat; ri_w : vec3; ri_a : vec3; ri_ocov : cmat; ri_wcov : cmat; ri_acov : cmat }.
Record mimu := mkMI { mi_header : mheader; mi_ori : quat; mi_w : vec3; mi_a : vec3; mi_ocov : list (option R); mi_wcov : list (option R); mi_acov : list (option R) }.
Definition imu_from_ros (msg : mimu) (s : rimu) : res rimu :=
  rbind (array_from_ros 3 3 (mi_ocov msg) (ri_ocov s)) (fun o => rbind (array_from_ros 3 3 (mi_wcov msg) (ri_wcov s)) (fun w => rbind (array_from_ros 3 3 (mi_acov msg) (ri_acov s)) (fun a =>
    Ok (mkRI (h_stamp (mi_header msg)) (h_frame (mi_header msg)) (mi_ori msg) (mi_w msg) (mi_a msg) o w a)))).
Definition imu_to_ros (msg : mimu) (s : rimu) : res mimu :=
  rbind (array_to_ros 3 3 (mi_ocov msg) (ri_ocov s)) (fun o => rbind (array_to_ros 3 3 (mi_wcov msg) (ri_wcov s)) (fun w => rbind (array_to_ros 3 3 (mi_acov msg) (ri_acov s)) (fun a =>
    Ok (mkMI (mkH (h_seq (mi_header msg)) (ri_time s) (ri_frame s)) (ri_ori s) (ri_w s) (ri_a s) o w a)))).

(* registration-inl.hpp 201-221.  `lidar` is body_frames.body_to_frame("lidar"); the adjoint is set from it in the constructor (176).
   The 4x4 matrix is given as linear part and translation. *)
Record mpcs := mkMPCS { ms_header : mheader; ms_pose : mposec }.
Definition body_covariance (lidar : iso) (cov : cmat) : cmat :=
  if all_finite (cov6 cov) then (fun i j => Some (change_covariance_adj (num (cov6 cov)) (transform_adjoint lidar) i j)) else cov.
Definition publish_refined_transform (lidar : iso) (body_frame : nat) (transform : iso) (cov : cmat) (stamp : Z) : res mpcs :=
  let transform_body := change_relative_transform_frame transform lidar in
  rbind (reorder true (cov6 (body_covariance lidar cov)) 3) (fun d => rbind (array_to_ros 6 6 (repeat (Some 0) 36) (d_at d)) (fun a =>
    Ok (mkMPCS (mkH 0 stamp body_frame) (mkMPC (iso_to_ros transform_body) a)))).
(* GM 21-24: PoseWithCovarianceStamped to a stamped pose *)
Definition pcs_from_ros (msg : mpcs) (p : rpose) : res (Z * rpose) := rbind (posec_from_ros (ms_pose msg) p) (fun q => Ok (h_stamp (ms_header msg), q)).
