(* Rotation vectors: pointcloud_tools/include/pointcloud_tools/point_types.hpp (PY), eigen_ext/include/eigen_ext/precomputed_transform_components.hpp (PT),
   eigen_ext/include/eigen_ext/geometry.hpp (GE).  float and double are read as R; Eigen::AngleAxis from a quaternion is angle_axis of RcModel.v. *)
From Coq Require Import Reals.
From Verif Require Import Base Interp Geo EgModel RcModel.
Open Scope R_scope.

(* Eigen AngleAxis::toRotationMatrix *)
Definition aa_matrix (a : R) (u : vec3) : mat3 :=
  let '(x, y, z) := u in
  let '(sx, sy, sz) := vscale (sin a) u in
  let c := cos a in
  let '(cx, cy, cz) := vscale (1 - c) u in
  ((cx * x + c, cx * y - sz, cx * z + sy), (cx * y + sz, cy * y + c, cy * z - sx), (cx * z - sy, cy * z + sx, cz * z + c)).
(* Eigen Quaternion from AngleAxis *)
Definition aa_quat (a : R) (u : vec3) : quat := let '(x, y, z) := vscale (sin (a / 2)) u in (cos (a / 2), x, y, z).
(* Eigen MatrixBase::normalized *)
Definition normalized (v : vec3) : vec3 := if Rlt_dec 0 (vdot v v) then vscale (/ sqrt (vdot v v)) v else v.

(* PY 73-107, 199-246: the point type PointAngleAxis.  The fourth, padding, components are left out *)
Record point_aa := mkPAA { a_pos : vec3; a_rot : vec3 }.
(* PY 98-103, 224-227: setPose(position, angle axis) *)
Definition paa_set (p : vec3) (au : R * vec3) : point_aa := mkPAA p (vscale (fst au) (snd au)).
(* PY 104, 229-231, 237-239; point_types.cpp 134-140: from a position and a quaternion *)
Definition paa_of_quat (p : vec3) (q : quat) : point_aa := paa_set p (angle_axis q).
(* PY 105-107, 233-235, 241-243, 220-222; point_types.cpp 126-128, 142-144: from a rotation matrix or a pose; Eigen goes through the quaternion *)
Definition paa_of_iso (t : iso) : point_aa := paa_set (tr t) (angle_axis (quat_of (lin t))).
(* point_types.cpp 146-150 *)
Definition paa_default : point_aa := mkPAA v0 v0.
(* PY 89 *)
Definition paa_angle (p : point_aa) : R := vnorm (a_rot p).
(* PY 90-92 *)
Definition paa_get (p : point_aa) : R * vec3 := (paa_angle p, normalized (a_rot p)).
(* PY 93 *)
Definition paa_matrix (p : point_aa) : mat3 := let '(a, u) := paa_get p in aa_matrix a u.
(* PY 94 *)
Definition paa_quat (p : point_aa) : quat := let '(a, u) := paa_get p in aa_quat a u.
(* PY 95-97 *)
Definition paa_iso (p : point_aa) : iso := mkIso (paa_matrix p) (a_pos p).

(* PT 33-56: all that is kept: rotation matrix, rotation vector, translation, angle, sine and cosine.  T_ is R_ and t_ side by side.
   None: r_ / a_ divides by zero, so that R_ and T_ are NaN *)
Record parts := mkParts { k_m : mat3; k_c : comps }.
Definition parts_of (t : iso) : option parts := Some (mkParts (lin t) (components t)).
Definition parts_rt (r t : vec3) : option parts :=
  let a := vnorm r in if Req_EM_T a 0 then None else Some (mkParts (aa_matrix a (vscale (/ a) r)) (components_rt r t)).

(* GE 257-268: angular, then linear *)
Definition linear_rates (p1 p2 : iso) (dt : R) : res (vec3 * vec3) :=
  if Rle_dec dt 0 then Throw
  else let t := relative_transform p1 p2 in let '(a, u) := angle_axis (quat_of (lin t)) in
    Ok (vscale (/ dt) (vscale a u), vscale (/ dt) (tr t)).
