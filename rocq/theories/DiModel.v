(* Distances between two clouds: pointcloud_tools/include/pointcloud_tools/impl/compute_distances.hpp (CD) and pointcloud_tools/src/compute_distances_main.cpp (CM).
   The source and target clouds are lists of finite positions (pcl::PointXYZ read as R); the output is the byte cloud of PcModel. *)
From Coq Require Import Reals List.
From Verif Require Import Base PcModel Interp Geo.
Import ListNotations.

Section Distances.
Variable K : codec R.
(* pcl::KdTreeFLANN over the target, nearestKSearch with k = 1: the squared distance when one neighbour was reported, None otherwise *)
Variable nearest : list vec3 -> vec3 -> option R.
(* tf2_ros::Buffer::lookupTransform(target frame, source frame, stamp), None when it throws *)
Variable lookup : string -> string -> Z -> option iso.

Definition FIELDS : list string := ["x"; "y"; "z"; "distance"]%string.
(* a default-constructed pcl::PCLPointCloud2 *)
Definition blank : cloud := mkC 0 0 "" 0 0 [] 0 0 0 [] 0.
(* CD 44-52 *)
Definition set_up (seq stamp : Z) (frame : string) (n : Z) : res cloud :=
  rbind (add_fields blank FIELDS FLOAT32 1) (fun o =>
  let w := u32 n in
  let rs := u32 (c_ps o * w) in
  Ok (mkC seq stamp frame 1 w (c_fields o) (c_big o) (c_ps o) rs (vresize (c_data o) (u32 (rs * 1))) 0)).
(* the body of the loop, CD 65-74 *)
Definition distance_step (fx fy fz fd : field) (src tgt : list vec3) (i : Z) (c : cloud) : res cloud :=
  match nth_error src (Z.to_nat i) with
  | None => UB
  | Some p => let '(x, y, z) := p in
      rbind (set_field_data K fx c i x) (fun c =>
      rbind (set_field_data K fy c i y) (fun c =>
      rbind (set_field_data K fz c i z) (fun c =>
      match nearest tgt p with Some d => set_field_data K fd c i (sqrt d) | None => Throw end)))
  end.
(* CD 41-77 *)
Definition compute_distances (seq stamp : Z) (frame : string) (src tgt : list vec3) : res cloud :=
  rbind (set_up seq stamp frame (Z.of_nat (length src))) (fun o =>
  rbind (get_field o "x") (fun fx =>
  rbind (get_field o "y") (fun fy =>
  rbind (get_field o "z") (fun fz =>
  rbind (get_field o "distance") (fun fd =>
  for_points (length src) 0 (distance_step fx fy fz fd src tgt) o))))).
(* CD 28-37 and 79-87: the cloud that is published for a pair of clouds; the transform is applied in float, rounding left out *)
Definition callback (seq stamp : Z) (frame : string) (src : list vec3) (tframe : string) (tgt : list vec3) : res cloud :=
  match lookup frame tframe stamp with
  | None => Throw
  | Some t => compute_distances seq stamp frame src (map (iapp t) tgt)
  end.
End Distances.

(* CM 5-22: whether the node starts *)
Definition starts (method source target : option string) : bool :=
  let or d o := match o with Some s => s | None => d end in
  String.eqb (or "POINT_TO_POINT"%string method) "POINT_TO_POINT" && String.eqb (or "PointXYZ"%string source) "PointXYZ" && String.eqb (or "PointXYZ"%string target) "PointXYZ".
