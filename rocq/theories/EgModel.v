(* Poses with covariance and frame changes.  eigen_ext/include/eigen_ext/geometry.hpp (GE), matrix.hpp (MX),
   eigen_ros/src/pose.cpp (PO), twist.cpp, odometry.cpp (OD), imu.cpp (IM).  double is read as R; matrices are functions of row and column. *)
From Coq Require Import ZArith Reals Lra Lia List.
From Verif Require Import Base Mx Interp Geo.
Open Scope R_scope.

(* entry (i, j) of a 3x3 matrix *)
Definition vget (v : vec3) (i : nat) : R := let '(x, y, z) := v in match i with O => x | S O => y | S (S O) => z | _ => 0 end.
Definition mget (a : mat3) : mx := fun i j => let '(r0, r1, r2) := a in match i with O => vget r0 j | S O => vget r1 j | S (S O) => vget r2 j | _ => 0 end.
(* << of four 3x3 blocks in reading order *)
Definition blocks (a b c d : mat3) : mx := fun i j =>
  if Nat.ltb i 3 then (if Nat.ltb j 3 then mget a i j else mget b i (j - 3)%nat) else (if Nat.ltb j 3 then mget c (i - 3)%nat j else mget d (i - 3)%nat (j - 3)%nat).
Definition block3 (m : mx) (r c : nat) : mat3 :=
  ((m r c, m r (1 + c)%nat, m r (2 + c)%nat), (m (1 + r)%nat c, m (1 + r)%nat (1 + c)%nat, m (1 + r)%nat (2 + c)%nat), (m (2 + r)%nat c, m (2 + r)%nat (1 + c)%nat, m (2 + r)%nat (2 + c)%nat)).

(* GE 308-315; rotation() of an Isometry3d is its linear part *)
Definition transform_adjoint (t : iso) : mx := blocks (lin t) m0 (mmul (skew (tr t)) (lin t)) (lin t).
(* GE 217-221 *)
Definition change_covariance_adj (cov adj : mx) : mx := mulm 6 (mulm 6 adj cov) (trm adj).
(* GE 223-227 *)
Definition change_covariance_frame (cov : mx) (t : iso) : mx := change_covariance_adj cov (transform_adjoint t).
(* GE 237-243 *)
Definition change_relative_transform_frame2 (rel b_a a_b : iso) : iso := imul (imul b_a rel) a_b.
(* GE 229-235 *)
Definition change_relative_transform_frame (rel b_a : iso) : iso := change_relative_transform_frame2 rel b_a (iinv b_a).
(* GE 245-255 *)
Definition compose_transform_covariance (prev rel : mx) (t : iso) (cross : mx) : mx :=
  let adj := transform_adjoint (iinv t) in
  addm (addm (addm (mulm 6 (mulm 6 adj prev) (trm adj)) rel) (mulm 6 cross (trm adj))) (mulm 6 adj (trm cross)).
(* GE 270-275 *)
Definition relative_transform (p1 p2 : iso) : iso := imul (iinv p1) p2.
(* GE 277-281 *)
Definition rotate_point_covariance (cov rot : mat3) : mat3 := mmul (mmul rot cov) (mT rot).

(* Eigen Quaternion from a rotation matrix (quaternionbase_assign_impl<Other, 3, 3>) *)
Definition quat_of (m : mat3) : quat :=
  let '((m00, m01, m02), (m10, m11, m12), (m20, m21, m22)) := m in
  let tr := m00 + m11 + m22 in
  if Rlt_dec 0 tr then
    let t := sqrt (tr + 1) in let s := / 2 / t in (/ 2 * t, (m21 - m12) * s, (m02 - m20) * s, (m10 - m01) * s)
  else
    let i1 := if Rlt_dec m00 m11 then true else false in
    let i2 := if Rlt_dec (if i1 then m11 else m00) m22 then true else false in
    if i2 then let t := sqrt (m22 - m00 - m11 + 1) in let s := / 2 / t in ((m10 - m01) * s, (m02 + m20) * s, (m12 + m21) * s, / 2 * t)
    else if i1 then let t := sqrt (m11 - m22 - m00 + 1) in let s := / 2 / t in ((m02 - m20) * s, (m01 + m10) * s, / 2 * t, (m21 + m12) * s)
    else let t := sqrt (m00 - m11 - m22 + 1) in let s := / 2 / t in ((m21 - m12) * s, / 2 * t, (m10 + m01) * s, (m20 + m02) * s).

(* eigen_ros/include/eigen_ros/pose.hpp Pose; covariance ordered rotation, translation *)
Record pose := mkPose { p_pos : vec3; p_ori : quat; p_cov : mx }.
(* PO 13-18 *)
Definition pose_of_blocks (p : vec3) (q : quat) (pcov ocov : mat3) : pose := mkPose p q (blocks ocov m0 m0 pcov).
(* PO 20-21 *)
Definition pose_of_iso (t : iso) (cov : mx) : pose := mkPose (tr t) (quat_of (lin t)) cov.
(* PO 51-53 *)
Definition pose_transform (p : pose) : iso := to_transform (p_pos p) (p_ori p).
(* PO 42-45 *)
Definition apply_transform (p : pose) (t : iso) : pose := pose_of_iso (imul (pose_transform p) t) (change_covariance_frame (p_cov p) (iinv t)).
(* PO 38-40 *)
Definition apply_pose (p t : pose) : pose := apply_transform p (pose_transform t).
(* PO 24-28 read exactly instead of up to rounding *)
Definition pose_eq (p q : pose) : Prop := p_pos p = p_pos q /\ qmat (p_ori p) = qmat (p_ori q) /\ eqm 6 6 (p_cov p) (p_cov q).

(* eigen_ros/include/eigen_ros/twist.hpp; twist.cpp 11-16; 23-29: covariance ordered angular, linear *)
Record twist := mkTwist { t_lin : vec3; t_ang : vec3; t_cov : mx }.
Definition twist_of_blocks (l a : vec3) (lcov acov : mat3) : twist := mkTwist l a (blocks acov m0 m0 lcov).
Definition angular_velocity_covariance (t : twist) : mat3 := block3 (t_cov t) 0 0.
Definition linear_velocity_covariance (t : twist) : mat3 := block3 (t_cov t) 3 3.
(* eigen_ros/include/eigen_ros/odometry.hpp; times in nanoseconds, names as numbers *)
Record odom := mkOdom { o_pose : pose; o_twist : twist; o_time : Z; o_frame : nat; o_child : nat }.
(* OD 21-24 *)
Definition apply_odometry (o : odom) (t : pose) (time : Z) : odom := mkOdom (apply_pose (o_pose o) t) (o_twist o) time (o_frame o) (o_child o).

(* imu.cpp 23-40: change_frame; measurements and covariances of a sample *)
Record imu := mkImu { i_ori : quat; i_w : vec3; i_a : vec3; i_ocov : mat3; i_wcov : mat3; i_acov : mat3 }.
Definition change_frame (s : imu) (to_ext from_ext : quat) : imu :=
  let tm := qmat to_ext in let fm := qmat from_ext in
  mkImu (qmul (i_ori s) to_ext) (mapply fm (i_w s)) (mapply fm (i_a s))
    (mmul (mmul tm (i_ocov s)) (mT tm)) (mmul (mmul fm (i_wcov s)) (mT fm)) (mmul (mmul fm (i_acov s)) (mT fm)).

(* MX 82-90: throws only if some diagonal entry is positive *)
Definition from_skew_symmetric (m : mat3) : res vec3 :=
  let '((m00, m01, m02), (m10, m11, m12), (m20, m21, m22)) := m in
  if Rlt_dec 0 (Rmax (Rmax m00 m11) m22) then Throw else Ok (m21, m02, m10).

(* GE 198-210.  acos outside [-1, 1] gives NaN, as does a division by a zero radius (impossible here): UB stands for a NaN result *)
Definition c_acos (x : R) : res R := if Rlt_dec 1 (Rabs x) then UB else Ok (acos x).
Definition cartesian_to_polar (x y z : R) : res vec3 :=
  let q := x * x + y * y in
  let r := sqrt (q + z * z) in
  if Req_EM_T q 0 then Throw
  else rbind (c_acos (x / q)) (fun a_ =>
    let a := if Rle_dec 0 y then a_ else 2 * PI - a_ in
    rbind (c_acos (z / r)) (fun e => Ok (r, a, e))).
