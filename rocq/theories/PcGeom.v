(* Point cloud utilities with real-valued geometry: deskew, unit vectors, statistics.
   pointcloud_tools/src/pclpointcloud2_utilities.cpp (PU), pointcloud_tools/include/pointcloud_tools/impl/pclpointcloud2_utilities.hpp (PI),
   eigen_ext/include/eigen_ext/matrix.hpp (MX).
   Arithmetic in float and double is read as arithmetic in R; rounding happens where a value is stored in or read out of a field (cast). *)
From Coq Require Import Reals Lra Lia Psatz.
From Verif Require Import Base Interp Geo PcModel PcSpec.
Open Scope R_scope.

(* sum of squares of the entries of a 3x3 matrix *)
Definition frob2 (m : mat3) : R := let '(a, b, c) := m in vdot a a + vdot b b + vdot c c.
(* Transform::isApprox(Identity), on the 4x4 matrices: |A - B|^2 <= prec^2 min(|A|^2, |B|^2) *)
Definition near_identity (prec : R) (t : vec3) (q : quat) : bool :=
  if Rle_dec (frob2 (madd (qmat q) (mopp mI)) + vdot t t) (prec * prec * Rmin (frob2 (qmat q) + vdot t t + 1) 4) then true else false.

(* where the sensor is, relative to the start of the scan, at fraction x of the scan: PU 134-139, 163-167 *)
Definition pose_at (eps : R) (t : vec3) (q : quat) (x : R) : iso := to_transform (vscale x t) (slerp eps x qI q).

Section Codec.
Variable K : codec R.

(* PU 157-175, the body of the loop *)
Definition deskew_step (eps dt : R) (t : vec3) (q : quat) (new : iso) (fx fy fz ft : field) (i : Z) (c : cloud) : res cloud :=
  rbind (read_field K FLOAT64 fx c i) (fun x =>
  rbind (read_field K FLOAT64 fy c i) (fun y =>
  rbind (read_field K FLOAT64 fz c i) (fun z =>
  rbind (read_field K FLOAT64 ft c i) (fun s =>
  let '(x', y', z') := iapp (imul new (pose_at eps t q (s / dt))) (x, y, z) in
  rbind (write_field K fx c i x') (fun c =>
  rbind (write_field K fy c i y') (fun c =>
  rbind (write_field K fz c i z') (fun c => write_field K ft c i 0))))))).
(* the fraction of the scan at which new_time lies, PU 132-133; the subtraction is in std::uint64_t *)
Definition new_fraction (dt : R) (new_time stamp : Z) : R := IZR (u64 (new_time - stamp)) / 1000000 / dt.
(* PU 116-178; the rotation of skew is given as the quaternion q that line 129 extracts *)
Definition deskew (eps prec : R) (t : vec3) (q : quat) (dt : R) (new_time : Z) (src : cloud) : res cloud :=
  let dest := with_stamp src new_time in
  if near_identity prec t q then Ok dest
  else if Rle_dec dt 0 then Throw
  else
    let new := iinv (pose_at eps t q (new_fraction dt new_time (c_stamp src))) in
    rbind (get_field dest "x"%string) (fun fx =>
    rbind (get_field dest "y"%string) (fun fy =>
    rbind (get_field dest "z"%string) (fun fz =>
    rbind (get_field dest "t"%string) (fun ft =>
    if known (f_ty fx) && known (f_ty fy) && known (f_ty fz) && known (f_ty ft)
    then for_points (Z.to_nat (size_points dest)) 0 (deskew_step eps dt t q new fx fy fz ft) dest
    else Throw)))).

(* MX 122-133 *)
Definition safe_normalise (v : vec3) : res vec3 := if Req_EM_T (vnorm v) 0 then Throw else Ok (vscale (/ vnorm v) v).
(* PU 50-56 *)
Definition unit_step (fx fy fz ux uy uz : field) (i : Z) (c : cloud) : res cloud :=
  rbind (read_field K FLOAT32 fx c i) (fun x =>
  rbind (read_field K FLOAT32 fy c i) (fun y =>
  rbind (read_field K FLOAT32 fz c i) (fun z =>
  rbind (safe_normalise (x, y, z)) (fun u =>
  let '(a, b, d) := u in
  rbind (write_field K ux c i a) (fun c =>
  rbind (write_field K uy c i b) (fun c => write_field K uz c i d)))))).
(* PU 41-58; create_set_field_data_function<float, float> throws unless the field is FLOAT32 *)
Definition add_unit_vectors (src : cloud) : res cloud :=
  rbind (add_fields src ["ux"%string; "uy"%string; "uz"%string] FLOAT32 1) (fun dest =>
  rbind (get_field dest "x"%string) (fun fx =>
  rbind (get_field dest "y"%string) (fun fy =>
  rbind (get_field dest "z"%string) (fun fz =>
  rbind (get_field dest "ux"%string) (fun ux =>
  rbind (get_field dest "uy"%string) (fun uy =>
  rbind (get_field dest "uz"%string) (fun uz =>
  if known (f_ty fx) && known (f_ty fy) && known (f_ty fz) && (f_ty ux =? FLOAT32)%Z && (f_ty uy =? FLOAT32)%Z && (f_ty uz =? FLOAT32)%Z
  then for_points (Z.to_nat (size_points dest)) 0 (unit_step fx fy fz ux uy uz) dest
  else Throw))))))).

(* PI 587-629: std::max, std::min *)
Definition std_max (a b : R) : R := if Rlt_dec a b then b else a.
Definition std_min (a b : R) : R := if Rlt_dec b a then b else a.
Definition field_max (T : Z) (lowest : R) (c : cloud) (f : field) : res R := field_extreme K T std_max lowest c f.
Definition field_min (T : Z) (highest : R) (c : cloud) (f : field) : res R := field_extreme K T std_min highest c f.
(* PI 606-610, 692-701, 723-738, with T = double; None stands for the NaN of 0.0 / 0.0 *)
Definition field_sum (c : cloud) (f : field) : res R := fold_all K FLOAT64 Rplus 0 c f.
Definition field_mean (c : cloud) (f : field) : res (option R) :=
  rbind (field_sum c f) (fun s => Ok (if (size_points c =? 0)%Z then None else Some (s / IZR (size_points c)))).
Definition field_variance (c : cloud) (f : field) (mean : R) : res (option R) :=
  rbind (fold_all K FLOAT64 (fun acc v => acc + (v - mean) * (v - mean)) 0 c f) (fun s =>
  Ok (if (size_points c =? 0)%Z then None else Some (s / IZR (size_points c)))).
(* PU 418-427 *)
Record summary := mkS { s_label : string; s_min : R; s_max : R; s_mean : R; s_var : R; s_count : Z }.
Definition statistics (lowest highest : R) (c : cloud) (f : field) : res summary :=
  rbind (field_min FLOAT64 highest c f) (fun mn =>
  rbind (field_max FLOAT64 lowest c f) (fun mx =>
  rbind (field_mean c f) (fun me =>
  match me with
  | None => Throw   (* not reached: min has thrown on an empty cloud *)
  | Some m => rbind (field_variance c f m) (fun v => match v with None => Throw | Some v => Ok (mkS (f_name f) mn mx m v (size_points c)) end)
  end))).
End Codec.
