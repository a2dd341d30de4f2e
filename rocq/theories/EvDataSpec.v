(* What the reports of the evaluation scripts are meant to say. *)
From Coq Require Import Reals List ZArith.
From Verif Require Import Base Interp Geo EgModel EgProofs MsModel RoModel RoSpec BfModel EvModel EvSpec EvProofs EvPose EvData.
Import ListNotations.
Open Scope R_scope.

(* the stamps asked for, counted from the first message of the reference *)
Definition wanted {A} (b : bounds) (l : list (R * A)) (t : R) : Prop :=
  match b with None => True | Some (start, duration) => exists first, nth_error l 0 = Some first /\ fst first + start <= t <= fst first + start + duration end.
(* k is the part of l for which P holds, in order *)
Definition part_of {A} (P : A -> Prop) (l k : list A) : Prop := exists f, (forall a, In a l -> f a = true <-> P a) /\ k = filter f l.
(* the messages of the reference within the bounds *)
Definition reference (b : bounds) (gt ref : list odom) : Prop := part_of (fun m => wanted b (stamped od_pose gt) (stamp_of m)) gt ref.
(* the messages of an estimate at times the reference covers *)
Definition in_reference (ref msgs kept : list odom) : Prop := part_of (fun m => covered (stamped od_pose ref) (stamp_of m)) msgs kept.
(* the angle of a rotation *)
Definition turn_angle (m : mat3) (a : R) : Prop := let '((xx, _, _), (_, yy, _), (_, _, zz)) := m in 0 <= a <= PI /\ 2 * cos a = xx + yy + zz - 1.
(* r is the root of the mean of the squares, and there is one exactly when there is something to average *)
Definition root_mean_square (l : list R) (r : option R) : Prop :=
  match r with None => l = [] | Some x => l <> [] /\ 0 <= x /\ INR (length l) * (x * x) = fold_right Rplus 0 (map (fun y => y * y) l) end.
Definition dist (a b : vec3) : R := vnorm (vsub a b).
(* messages whose stamps never go back / always go on, and whose poses have an orientation *)
Definition ordered (l : list odom) : Prop := in_order (stamped od_pose l).
Definition strictly (l : list odom) : Prop := increasing (stamped od_pose l).
Definition posed (l : list odom) : Prop := forall m, In m l -> oriented (od_pose m).
Definition matrix_of (m : odom) : iso := pose_to_matrix (od_pose m).
(* contracts of rotm2axang and quat2axang: unit axis, angle within half a turn, the same rotation *)
Definition reads_axis (r2a : mat3 -> vec3 * R) : Prop := forall m, proper m -> let '(u, a) := r2a m in vdot u u = 1 /\ Rabs a <= PI /\ aa_matrix a u = m.
Definition reads_quaternion (q2a : quat -> vec3 * R) : Prop := forall q, qdot q q <> 0 -> let '(u, a) := q2a q in vdot u u = 1 /\ Rabs a <= PI /\ aa_matrix a u = qmat (qnormalise q).
(* the same run seen from elsewhere *)
Definition moved_msg (t : vec3) (q : quat) (m : odom) : odom := mkOd (od_sec m) (od_nsec m) (moved t q (od_pose m)) (od_lin m) (od_ang m).
Definition same_run (msgs msgs' : list odom) : Prop := exists t q, qunit q /\ msgs' = map (moved_msg t q) msgs.
(* what is reported of the poses of a trajectory: distance from the origin, rotation vector and angle *)
Definition track_says (tk : track) : Prop :=
  forall k t x, nth_error (tk_traj tk) k = Some (t, x) -> nth_error (tk_distances tk) k = Some (vnorm (mp_pos x)) /\
    (exists r, nth_error (tk_rots tk) k = Some r /\ rotation_vector r (lin (pose_to_matrix x))) /\
    exists a, nth_error (tk_angles tk) k = Some a /\ turn_angle (lin (pose_to_matrix x)) a.
(* what an entry of the report says about an estimate *)
Definition says (mixq : quat -> quat -> R -> quat) (ref kept : list odom) (n : iso) (e : pose_entry) : Prop :=
  exists gs, length gs = length kept /\
    es_t (pe_ape e) = map stamp_of kept /\ es_t (pe_rpe e) = tl (map stamp_of kept) /\
    length (es_norm1 (pe_ape e)) = length kept /\ length (es_norm2 (pe_ape e)) = length kept /\ length (es_norm1 (pe_rpe e)) = pred (length kept) /\ length (es_norm2 (pe_rpe e)) = pred (length kept) /\
    (forall k m g, nth_error kept k = Some m -> nth_error gs k = Some g ->
      value_at pose_to_matrix (pose_between mixq) (stamped od_pose ref) (stamp_of m) g /\
      nth_error (es_norm1 (pe_ape e)) k = Some (dist (tr (imul n (matrix_of m))) (tr g)) /\
      (exists a, nth_error (es_norm2 (pe_ape e)) k = Some a /\ turn_angle (mmul (mT (lin g)) (mmul (lin n) (lin (matrix_of m)))) a) /\
      nth_error (es_1 (pe_ape e)) k = Some (tr (imul (iinv g) (imul n (matrix_of m)))) /\
      (exists r, nth_error (es_2 (pe_ape e)) k = Some r /\ rotation_vector r (mmul (mT (lin g)) (mmul (lin n) (lin (matrix_of m))))) /\
      exists x, nth_error (tk_traj (pe_track e)) k = Some (stamp_of m, x) /\ pose_to_matrix x = imul n (matrix_of m)) /\
    (forall k m g m' g', nth_error kept k = Some m -> nth_error gs k = Some g -> nth_error kept (S k) = Some m' -> nth_error gs (S k) = Some g' ->
      let own := imul (iinv (matrix_of m)) (matrix_of m') in let true_step := imul (iinv g) g' in
      nth_error (es_norm1 (pe_rpe e)) k = Some (dist (tr own) (tr true_step)) /\
      exists a, nth_error (es_norm2 (pe_rpe e)) k = Some a /\ turn_angle (mmul (mT (lin true_step)) (lin own)) a) /\
    root_mean_square (es_norm1 (pe_ape e)) (es_rmse1 (pe_ape e)) /\ root_mean_square (es_norm2 (pe_ape e)) (es_rmse2 (pe_ape e)) /\
    root_mean_square (es_norm1 (pe_rpe e)) (es_rmse1 (pe_rpe e)) /\ root_mean_square (es_norm2 (pe_rpe e)) (es_rmse2 (pe_rpe e)) /\
    tk_length (pe_track e) = path_length (map (fun m => mp_pos (od_pose m)) kept) /\ length (tk_traj (pe_track e)) = length kept /\ track_says (pe_track e).
(* the same for velocities: linear and angular *)
Definition twist_says (ref kept : list odom) (e : twist_entry) : Prop :=
  te_t e = map stamp_of kept /\ te_lin e = map od_lin kept /\ te_ang e = map od_ang kept /\
  exists gl ga, length gl = length kept /\ length ga = length kept /\ es_t (te_ae e) = map stamp_of kept /\ es_t (te_re e) = tl (map stamp_of kept) /\
    length (es_norm1 (te_ae e)) = length kept /\ length (es_norm2 (te_ae e)) = length kept /\ length (es_norm1 (te_re e)) = pred (length kept) /\ length (es_norm2 (te_re e)) = pred (length kept) /\
    (forall k m v w, nth_error kept k = Some m -> nth_error gl k = Some v -> nth_error ga k = Some w ->
      value_at (fun x => x) between_points (stamped od_lin ref) (stamp_of m) v /\ value_at (fun x => x) between_points (stamped od_ang ref) (stamp_of m) w /\
      nth_error (es_1 (te_ae e)) k = Some (vsub (od_lin m) v) /\ nth_error (es_2 (te_ae e)) k = Some (vsub (od_ang m) w) /\
      nth_error (es_norm1 (te_ae e)) k = Some (dist (od_lin m) v) /\ nth_error (es_norm2 (te_ae e)) k = Some (dist (od_ang m) w)) /\
    (forall k m v w m' v' w', nth_error kept k = Some m -> nth_error gl k = Some v -> nth_error ga k = Some w -> nth_error kept (S k) = Some m' -> nth_error gl (S k) = Some v' -> nth_error ga (S k) = Some w' ->
      nth_error (es_norm1 (te_re e)) k = Some (dist (vsub (od_lin m') (od_lin m)) (vsub v' v)) /\ nth_error (es_norm2 (te_re e)) k = Some (dist (vsub (od_ang m') (od_ang m)) (vsub w' w))) /\
    root_mean_square (es_norm1 (te_ae e)) (es_rmse1 (te_ae e)) /\ root_mean_square (es_norm2 (te_ae e)) (es_rmse2 (te_ae e)) /\
    root_mean_square (es_norm1 (te_re e)) (es_rmse1 (te_re e)) /\ root_mean_square (es_norm2 (te_re e)) (es_rmse2 (te_re e)).
