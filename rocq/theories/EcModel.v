(* Evaluation scripts about registration covariances: plotting/compute_relative_poses.m (RP), plot_normalised_covariance_scatter.m (NS),
   plot_gaussian_ellipsoid/plot_gaussian_ellipsoid.m (GE), compute_jacobians_data.m (JD), extract_pose_with_covariance_stamped.m (PC).
   Doubles are read as R; an index outside an array, an output that is never assigned and a call of error() are Throw. *)
From Coq Require Import Reals List.
From Verif Require Import Base Interp Geo EgModel MsModel RoModel BfModel EvModel.
Import ListNotations.
Open Scope R_scope.

Section Covariance.
(* quatinterp, rotm2quat; eig of a 3x3 matrix: the eigenvectors as columns, the diagonal of the second output *)
Variable mixq : quat -> quat -> R -> quat.
Variable r2q : mat3 -> quat.
Variable eig : mat3 -> mat3 * vec3.

(* RP 3-8 *)
Fixpoint relative_loop (prev : iso) (l : list mpose) : list mpose :=
  match l with [] => [] | p :: l' => let T := pose_to_matrix p in matrix_to_pose r2q (ldiv prev T) :: relative_loop T l' end.
(* RP: poses(1) of nothing is an index error, with one pose the output is never assigned *)
Definition compute_relative_poses (l : list mpose) : res (list mpose) :=
  match l with p :: (_ :: _) as l' => Ok (relative_loop (pose_to_matrix p) l') | _ => Throw end.

(* GE 101-106, NS 32-37: variances to standard deviations; max(d, 0) only if there is a negative entry *)
Definition deviations (sdwidth : R) (d : vec3) : vec3 :=
  let '(a, b, c) := d in
  let '(a', b', c') := if rltb a 0 || rltb b 0 || rltb c 0 then (Rmax a 0, Rmax b 0, Rmax c 0) else (a, b, c) in
  (sdwidth * sqrt a', sdwidth * sqrt b', sdwidth * sqrt c').
Definition times (d u : vec3) : vec3 := let '(a, b, c) := d in let '(x, y, z) := u in (a * x, b * y, c * z).
(* GE 99-109: the point of the surface drawn for the point u of the sphere *)
Definition ellipsoid_point (means : vec3) (C : mat3) (sdwidth : R) (u : vec3) : vec3 :=
  vadd (mapply (fst (eig C)) (times (deviations sdwidth (snd (eig C))) u)) means.

(* NS 40: inv of a diagonal matrix; with a zero on the diagonal every entry is infinite and the product no number *)
Definition inverse_times (d t : vec3) : option vec3 :=
  let '(a, b, c) := d in let '(x, y, z) := t in
  if Req_EM_T a 0 then None else if Req_EM_T b 0 then None else if Req_EM_T c 0 then None else Some (/ a * x, / b * y, / c * z).
(* NS 31-41 *)
Definition normalised_error (C : mat3) (t : vec3) : option vec3 :=
  option_map (mapply (fst (eig C))) (inverse_times (deviations 2 (snd (eig C))) t).
(* NS 5-16: differences of the positions of the relative poses; the trajectories have the same length *)
Definition translation_errors (ref traj : list (R * mpose)) : res (list vec3) :=
  rbind (interpolate_trajectory mixq r2q (map fst traj) ref) (fun interp =>
  rbind (compute_relative_poses (map snd traj)) (fun a =>
  rbind (compute_relative_poses (map snd interp)) (fun b =>
  Ok (map (fun x => vsub (mp_pos (fst x)) (mp_pos (snd x))) (combine a b))))).
(* NS 42, 60-61: norm_t_error_vecnorm is a number that every turn overwrites *)
Definition printed (l : list (option vec3)) : R :=
  match last l None with Some e => if rltb (vnorm e) 1 then 1 else 0 | None => 0 end.
(* NS: length of an n x 3 matrix is the larger of n and 3, so that with fewer than three errors the loop leaves it *)
Definition scatter (ref traj : list (R * mpose)) (covs : list mat3) : res (list (option vec3) * R) :=
  rbind (translation_errors ref traj) (fun e =>
  if Nat.eqb (length e) (length covs)
  then if Nat.leb 3 (length e)
       then let n := map (fun x => normalised_error (fst x) (snd x)) (combine covs e) in Ok (n, printed n)
       else Throw
  else Throw).
End Covariance.

(* JD: one entry per list of messages.  A row of another length than the first is an assignment error *)
Record jac_entry := mkJE { je_dim : nat; je_rows : list (list R); je_abs : list (list R); je_sq : list (list R) }.
Definition jacobian_entry (msgs : list (list R)) : res jac_entry :=
  let dim := match msgs with [] => O | m :: _ => length m end in
  if forallb (fun m => Nat.eqb (length m) dim) msgs
  then Ok (mkJE dim msgs (map (map Rabs) msgs) (map (map (fun x => x * x)) msgs))
  else Throw.

(* PC 12-17: reshape takes the 36 numbers column by column; ROS sends them row by row *)
Definition entry (c : list R) (i j : nat) : R := nth (j * 6 + i) c 0.
Definition diagonal_entries (c : list R) : list R := map (fun i => entry c i i) (seq 0 6).
(* PC 18: the root of a negative number is complex: no real number *)
Definition sigmas (c : list R) : list (option R) := map (fun d => if rltb d 0 then None else Some (sqrt d)) (diagonal_entries c).
