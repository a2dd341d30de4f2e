(* Reports of the evaluation scripts (MATLAB): plotting/compute_pose_data.m (PD), compute_twist_data.m (TD), split_poses.m (SP), extract_timestamps.m (XT),
   extract_poses.m, extract_positions.m, extract_quaternions.m, extract_twists.m, extract_linear_velocities.m, extract_angular_velocities.m.
   As in EvModel.v doubles are read as R and an index error or a call of error() is Throw.  Of a message only what the scripts read is kept; names are
   handed through and left out. *)
From Coq Require Import Reals List ZArith.
From Verif Require Import Base Interp Geo EgModel MsModel RoModel BfModel EvModel.
Import ListNotations.
Open Scope R_scope.

(* nav_msgs/Odometry: Header.Stamp, Pose.Pose, Twist.Twist.Linear, Twist.Twist.Angular *)
Record odom := mkOd { od_sec : Z; od_nsec : Z; od_pose : mpose; od_lin : vec3; od_ang : vec3 }.
(* XT 2-4 *)
Definition stamp_of (m : odom) : R := IZR (od_sec m) + IZR (od_nsec m) / 1000000000.
(* PD 10-11, 36-37, TD 4-5, 30-32: one list of pairs for the stamps and what is extracted *)
Definition stamped {A} (f : odom -> A) (l : list odom) : list (R * A) := map (fun m => (stamp_of m, f m)) l.
(* time_bounds: None when filter is false, otherwise start and duration *)
Definition bounds := option (R * R).
(* PD 12-19, TD 6-13; timestamps(1) of nothing is an index error *)
Definition time_filter {A} (b : bounds) (l : list (R * A)) : res (list (R * A)) :=
  match b with
  | None => Ok l
  | Some (start, duration) =>
      match l with
      | [] => Throw
      | first :: _ => let start_t := fst first + start in let end_t := start_t + duration in Ok (filter (fun e => rleb start_t (fst e) && rleb (fst e) end_t) l)
      end
  end.
(* rms of a column; of an empty one it is no number *)
Definition rms (l : list R) : option R := match l with [] => None | _ => Some (sqrt (fold_right (fun x s => x * x + s) 0 l / INR (length l))) end.
(* the loops over data.odoms *)
Fixpoint map_res {A B} (f : A -> res B) (l : list A) : res (list B) :=
  match l with [] => Ok [] | a :: l' => rbind (f a) (fun b => rbind (map_res f l') (fun bs => Ok (b :: bs))) end.
(* PD 65-72, 73-80, TD 51-75: two columns of errors, their norms and the root of the mean of their squares *)
Record errs := mkErrs { es_t : list R; es_1 : list vec3; es_2 : list vec3; es_norm1 : list R; es_norm2 : list R; es_rmse1 : option R; es_rmse2 : option R }.
Definition make_errs (t : list R) (a b : list vec3) : errs := mkErrs t a b (map vnorm a) (map vnorm b) (rms (map vnorm a)) (rms (map vnorm b)).

Section Report.
(* quatinterp with method slerp, rotm2quat; rotm2axang and quat2axang as axis and angle *)
Variable mixq : quat -> quat -> R -> quat.
Variable r2q : mat3 -> quat.
Variable r2a : mat3 -> vec3 * R.
Variable q2a : quat -> vec3 * R.

(* SP 6-9 *)
Definition rot_axang (m : mat3) : vec3 := let '(u, a) := r2a m in vscale a u.
Definition split_poses (l : list iso) : list vec3 * list vec3 := (map tr l, map (fun t => rot_axang (lin t)) l).
(* PD 22-28 for the reference, 55-61 for an estimate *)
Record track := mkTrack { tk_traj : list (R * mpose); tk_distances : list R; tk_rots : list vec3; tk_angles : list R; tk_length : R }.
Definition make_track (l : list (R * mpose)) : res track :=
  rbind (compute_trajectory_length (map snd l)) (fun len =>
  Ok (mkTrack l (map (fun e => vnorm (mp_pos (snd e))) l) (map (fun e => let '(u, a) := q2a (mp_ori (snd e)) in vscale a u) l) (map (fun e => Rabs (snd (q2a (mp_ori (snd e))))) l) len)).
Record pose_entry := mkPE { pe_track : track; pe_ape : errs; pe_rpe : errs }.
(* PD 47-52 *)
Definition align (first fit : bool) (p : align_params) (gt l : list (R * mpose)) : res (list (R * mpose)) :=
  if first then align_to_first_pose mixq r2q gt l else if fit then align_trajectory mixq r2q p gt l else Ok l.
(* PD 34-81; timestamps(1) and (end) of an empty reference are index errors *)
Definition pose_entry_of (first fit : bool) (p : align_params) (gt : list (R * mpose)) (msgs : list odom) : res pose_entry :=
  match gt with
  | [] => Throw
  | _ =>
      rbind (align first fit p gt (inside gt (stamped od_pose msgs))) (fun l =>
      rbind (make_track l) (fun tk =>
      rbind (compute_pose_errors mixq gt l) (fun o =>
      let '(pa, ra) := split_poses (eo_abs o) in let '(pr, rr) := split_poses (eo_rel o) in
      Ok (mkPE tk (make_errs (eo_abs_t o) pa ra) (make_errs (eo_rel_t o) pr rr)))))
  end.
Record pose_report := mkPR { pr_gt : track; pr_entries : list pose_entry }.
(* PD *)
Definition compute_pose_data (b : bounds) (first fit : bool) (p : align_params) (gt : list odom) (odoms : list (list odom)) : res pose_report :=
  if first && fit then Throw else
  rbind (time_filter b (stamped od_pose gt)) (fun g =>
  rbind (make_track g) (fun tk =>
  rbind (map_res (pose_entry_of first fit p g) odoms) (fun es => Ok (mkPR tk es)))).
End Report.

(* TD 29-76.  The two calls of compute_vector_errors (47, 63) have the same stamps *)
Record twist_entry := mkTE { te_t : list R; te_lin : list vec3; te_ang : list vec3; te_speeds : list R; te_rates : list R; te_ae : errs; te_re : errs }.
Definition twist_entry_of (gt : list (R * (vec3 * vec3))) (msgs : list odom) : res twist_entry :=
  match gt with
  | [] => Throw
  | _ =>
      let l := inside gt (stamped (fun m => (od_lin m, od_ang m)) msgs) in
      let part {X} (f : vec3 * vec3 -> X) (k : list (R * (vec3 * vec3))) := map (fun e => (fst e, f (snd e))) k in
      rbind (compute_vector_errors (part fst gt) (part fst l)) (fun ol =>
      rbind (compute_vector_errors (part snd gt) (part snd l)) (fun oa =>
      Ok (mkTE (map fst l) (map (fun e => fst (snd e)) l) (map (fun e => snd (snd e)) l) (map (fun e => vnorm (fst (snd e))) l) (map (fun e => vnorm (snd (snd e))) l)
        (make_errs (eo_abs_t ol) (eo_abs ol) (eo_abs oa)) (make_errs (eo_rel_t ol) (eo_rel ol) (eo_rel oa)))))
  end.
(* TD; the columns of the reference (16-23) are those of its messages and left out *)
Definition compute_twist_data (b : bounds) (gt : list odom) (odoms : list (list odom)) : res (list twist_entry) :=
  rbind (time_filter b (stamped (fun m => (od_lin m, od_ang m)) gt)) (fun g => map_res (twist_entry_of g) odoms).
