(* Transforming point clouds with normals, unit vectors and covariances: pointcloud_tools/include/pointcloud_tools/impl/pclpointcloud_transform.hpp (TR),
   point_types.hpp (PY), impl/pclpointcloud_utilities.hpp (PU), serpent/include/serpent/front_end/lidar/transform_pointcloud-inl.hpp (TP).
   A float is a finite number (read as R, rounding and overflow left out) or not finite (None: NaN, infinity). *)
From Coq Require Import Reals List Lra.
From Verif Require Import Base Interp Geo EgModel.
Import ListNotations.
Open Scope R_scope.

Notation fl := (option R).
(* sums and products with something not finite are not finite *)
Definition flift (f : R -> R -> R) (a b : fl) : fl := match a, b with Some x, Some y => Some (f x y) | _, _ => None end.
Notation fvec := (fl * fl * fl)%type.
Definition fin (v : vec3) : fvec := let '(x, y, z) := v in (Some x, Some y, Some z).
Definition isfinite (x : fl) : bool := match x with Some _ => true | None => false end.
Definition finite3 (v : fvec) : bool := let '(x, y, z) := v in isfinite x && isfinite y && isfinite z.
Definition fdot (a : vec3) (v : fvec) : fl :=
  let '(a0, a1, a2) := a in let '(x, y, z) := v in
  flift Rplus (flift Rplus (flift Rmult (Some a0) x) (flift Rmult (Some a1) y)) (flift Rmult (Some a2) z).
(* pcl::detail::Transformer::so3 and se3 (PCL 1.10 common/impl/transforms.hpp); they read the source before they write the target *)
Definition so3 (t : iso) (v : fvec) : fvec := let '(r0, r1, r2) := lin t in (fdot r0 v, fdot r1 v, fdot r2 v).
Definition se3 (t : iso) (v : fvec) : fvec :=
  let '(x, y, z) := so3 t v in let '(a, b, c) := tr t in (flift Rplus x (Some a), flift Rplus y (Some b), flift Rplus z (Some c)).

(* covariance of a point: the six stored entries, PY 38-49 *)
Record cov6 := mkCov { cxx : fl; cxy : fl; cxz : fl; cyy : fl; cyz : fl; czz : fl }.
Definition fmat := (fvec * fvec * fvec)%type.
(* PY 52-57 *)
Definition get_covariance (c : cov6) : fmat := ((cxx c, cxy c, cxz c), (cxy c, cyy c, cyz c), (cxz c, cyz c, czz c)).
(* PY 64-71 *)
Definition set_covariance (m : fmat) : cov6 := let '((a, b, c), (_, d, e), (_, _, f)) := m in mkCov a b c d e f.
Definition fget (v : fvec) (i : nat) : fl := let '(x, y, z) := v in match i with O => x | S O => y | _ => z end.
Definition frow (m : fmat) (i : nat) : fvec := let '(x, y, z) := m in match i with O => x | S O => y | _ => z end.
Definition fcol (m : fmat) (j : nat) : fvec := (fget (frow m 0) j, fget (frow m 1) j, fget (frow m 2) j).
Definition row3 (m : mat3) (i : nat) : vec3 := let '(x, y, z) := m in match i with O => x | S O => y | _ => z end.
(* eigen_ext geometry.hpp 277-281 on floats: rotation * covariance * rotation^T *)
Definition frotate (rot : mat3) (m : fmat) : fmat :=
  let left i j := fdot (row3 rot i) (fcol m j) in
  let entry i j := fdot (row3 rot j) (left i 0%nat, left i 1%nat, left i 2%nat) in
  ((entry 0%nat 0%nat, entry 0%nat 1%nat, entry 0%nat 2%nat), (entry 1%nat 0%nat, entry 1%nat 1%nat, entry 1%nat 2%nat), (entry 2%nat 0%nat, entry 2%nat 1%nat, entry 2%nat 2%nat)).

(* PY 130-136, 138-144 PointNormalUnit *)
Record pnu := mkPnu { u_pos : fvec; u_nrm : fvec; u_curv : fl; u_unit : fvec }.
(* PY 175-181 PointNormalCovariance *)
Record pnc := mkPnc { c_pos : fvec; c_nrm : fvec; c_curv : fl; c_cov : cov6 }.
(* pcl::PointNormal, pcl::PointXYZINormal etc.: position, normal and the remaining fields *)
Record pn (A : Type) := mkPn { n_pos : fvec; n_nrm : fvec; n_rest : A }.
Arguments mkPn {A}. Arguments n_pos {A}. Arguments n_nrm {A}. Arguments n_rest {A}.
(* default constructed points: point_types.cpp; PointNormalUnit *)
Definition pnu_default : pnu := mkPnu (fin v0) (fin v0) (Some 0) (fin v0).
(* point_types.cpp 100-106 *)
Definition pnc_default : pnc := mkPnc (fin v0) (fin v0) (Some 0) (mkCov (Some 0) (Some 0) (Some 0) (Some 0) (Some 0) (Some 0)).

(* pcl::PointCloud; header: stamp, sequence and frame as one value; sensor origin and orientation as one value *)
Record cloud (P : Type) := mkCloud { k_header : nat; k_width : nat; k_height : nat; k_dense : bool; k_sensor : nat; k_points : list P }.
Arguments mkCloud {P}. Arguments k_header {P}. Arguments k_width {P}. Arguments k_height {P}. Arguments k_dense {P}. Arguments k_sensor {P}. Arguments k_points {P}.
(* std::vector::resize *)
Definition resize {P} (n : nat) (d : P) (l : list P) : list P := firstn n l ++ repeat d (n - length l).
Fixpoint zip_with {A B C} (f : A -> B -> C) (a : list A) (b : list B) : list C := match a, b with x :: a, y :: b => f x y :: zip_with f a b | _, _ => [] end.
(* TR 25-38, 99-112 *)
Definition prepare {P} (d : P) (copy_all : bool) (inp out : cloud P) : cloud P :=
  mkCloud (k_header inp) (k_width inp) (k_height inp) (k_dense inp) (k_sensor inp) (if copy_all then k_points inp else resize (length (k_points inp)) d (k_points out)).
(* TR 40-59, 114-135: write a b is the output point b after the fields of the input point a were transformed into it *)
Definition transform_points {P} (pos : P -> fvec) (write : P -> P -> P) (dense : bool) (inp out : list P) : list P :=
  zip_with (fun a b => if dense then write a b else if finite3 (pos a) then write a b else b) inp out.
(* TR 25-59, 99-135 with distinct clouds; out is what the output cloud held before *)
Definition transform_cloud {P} (d : P) (pos : P -> fvec) (write : P -> P -> P) (copy_all : bool) (inp out : cloud P) : cloud P :=
  let o := prepare d copy_all inp out in
  mkCloud (k_header o) (k_width o) (k_height o) (k_dense o) (k_sensor o) (transform_points pos write (k_dense inp) (k_points inp) (k_points o)).
(* the same with &cloud_in == &cloud_out *)
Definition transform_in_place {P} (pos : P -> fvec) (write : P -> P -> P) (c : cloud P) : cloud P :=
  mkCloud (k_header c) (k_width c) (k_height c) (k_dense c) (k_sensor c) (transform_points pos write (k_dense c) (k_points c) (k_points c)).
(* TR 44-46, 55-57 *)
Definition write_unit (t : iso) (a b : pnu) : pnu := mkPnu (se3 t (u_pos a)) (so3 t (u_nrm a)) (u_curv b) (so3 t (u_unit a)).
(* TR 118-121, 130-133 *)
Definition write_cov (t : iso) (a b : pnc) : pnc := mkPnc (se3 t (c_pos a)) (so3 t (c_nrm a)) (c_curv b) (set_covariance (frotate (lin t) (get_covariance (c_cov a)))).
(* PCL 1.10 transformPointCloudWithNormals: same structure *)
Definition write_normal {A} (t : iso) (a b : pn A) : pn A := mkPn (se3 t (n_pos a)) (so3 t (n_nrm a)) (n_rest b).
(* TP 12-46: by type of point; copy_all_fields has the default value true (pclpointcloud_transform.hpp 9-37, PCL) *)
Definition transform_pointcloud_unit (t : iso) := transform_cloud pnu_default u_pos (write_unit t) true.
Definition transform_pointcloud_cov (t : iso) := transform_cloud pnc_default c_pos (write_cov t) true.
Definition transform_pointcloud_normal {A} (d : A) (t : iso) := transform_cloud (mkPn (fin v0) (fin v0) d) n_pos (write_normal t) true.

(* PU 15-29: a comparison with NaN is false.  A normal with an infinite component has an infinite norm, which is counted; so the two kinds
   of values that are not finite are told apart here by the oracle nan *)
Definition counted (threshold : R) (nan : bool) (v : fvec) : bool :=
  match v with
  | (Some x, Some y, Some z) => if Rlt_dec threshold (Rabs (vnorm (x, y, z) - 1)) then true else false
  | _ => negb nan
  end.
Fixpoint check_normals (threshold : R) (l : list (bool * fvec)) : nat :=
  match l with [] => 0 | (nan, v) :: l => (if counted threshold nan v then 1 else 0) + check_normals threshold l end%nat.
(* PU 31-41 *)
Definition extract_unit_vectors (l : list pnu) : list fvec := map u_unit l.
(* PU 8-13 for a floating point field t, and for an unsigned integer field (the quotient is converted back to the integer type) *)
Definition ns_to_s (t : list R) : list R := map (fun x => x / 1000000000) t.
Definition ns_to_s_int (t : list Z) : list Z := map (fun x => Z.quot x 1000000000) t.
