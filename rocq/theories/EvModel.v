(* Evaluation scripts (MATLAB): plotting/compute_pose_errors.m (PE), compute_vector_errors.m (VE), interp_transform.m (IT), interp_vector.m (IV),
   interpolate_trajectory.m (JT), recompute_trajectory.m (RT), align_to_first_pose.m (AF), align_trajectory.m (AT), compute_trajectory_length.m (TL),
   pose_to_matrix.m (PM), matrix_to_pose.m (MP), compute_frame_track_statistics.m (FT), compute_track_retention.m (TR), extract_statistics.m (ES).
   Doubles are read as R.  An index outside an array or a call of error() is Throw; a result that is not a number (0/0) is UB where it becomes the
   outcome.  The arrays of stamps and of values of one trajectory are one list of pairs; an index into the reference is the element before it and
   the elements from it on. *)
From Coq Require Import Reals List ZArith.
From Verif Require Import Base Interp Geo EgModel MsModel RoModel BfModel.
Import ListNotations.
Open Scope R_scope.

Definition rleb (a b : R) : bool := if Rle_dec a b then true else false.
Definition rltb (a b : R) : bool := if Rlt_dec a b then true else false.

(* PE 28-30, VE 28-30, AF 5-7: while gt_timestamps(gt_index) < t, gt_index + 1 *)
Fixpoint advance {A} (before : option (R * A)) (rest : list (R * A)) (t : R) : option (R * A) * list (R * A) :=
  match rest with
  | e :: r => if rltb (fst e) t then advance (Some e) r t else (before, rest)
  | [] => (before, [])
  end.
(* PE 28-39, VE 28-37, AF 5-19: the value of the reference at t; gt_index past the end (28) and gt_index - 1 = 0 (35) are index errors *)
Definition at_time {A B} (whole : A -> B) (interp : R -> R -> A -> A -> R -> res B) (z : option (R * A) * list (R * A)) (t : R) : res B :=
  match snd z with
  | [] => Throw
  | e :: _ => if Req_EM_T (fst e) t then Ok (whole (snd e)) else match fst z with None => Throw | Some b => interp (fst b) (fst e) (snd b) (snd e) t end
  end.
(* PE 24-47, VE 25-45: one pass over the trajectory; absolute reference value, relative previous_reference previous_value reference value *)
Fixpoint errors_loop {A B C E} (whole : A -> B) (interp : R -> R -> A -> A -> R -> res B) (conv : C -> B) (absolute : B -> B -> E) (relative : B -> B -> B -> B -> E)
    (before : option (R * A)) (rest : list (R * A)) (prev : option (B * B)) (l : list (R * C)) : res (list E * list E) :=
  match l with
  | [] => Ok ([], [])
  | (t, x) :: l' =>
      let z := advance before rest t in
      rbind (at_time whole interp z t) (fun g =>
      rbind (errors_loop whole interp conv absolute relative (fst z) (snd z) (Some (g, conv x)) l') (fun r =>
      Ok (absolute g (conv x) :: fst r, match prev with None => snd r | Some (pg, pv) => relative pg pv g (conv x) :: snd r end)))
  end.
(* PE 8-13, VE 9-14, compute_pose_data.m 40-44 *)
Definition inside {A C} (gt : list (R * A)) (l : list (R * C)) : list (R * C) :=
  match gt with [] => [] | first :: _ => filter (fun e => rleb (fst e) (fst (last gt first)) && rleb (fst first) (fst e)) l end.
Record errors_out (E : Type) := mkEO { eo_abs : list E; eo_abs_t : list R; eo_rel : list E; eo_rel_t : list R }.
Arguments mkEO {E}. Arguments eo_abs {E}. Arguments eo_abs_t {E}. Arguments eo_rel {E}. Arguments eo_rel_t {E}.
Definition errors {A B C E} (whole : A -> B) (interp : R -> R -> A -> A -> R -> res B) (conv : C -> B) (absolute : B -> B -> E) (relative : B -> B -> B -> B -> E)
    (gt : list (R * A)) (l : list (R * C)) : res (errors_out E) :=
  match gt with
  | [] => Throw
  | _ => let i := inside gt l in rbind (errors_loop whole interp conv absolute relative None gt None i) (fun r => Ok (mkEO (fst r) (map fst i) (snd r) (tl (map fst i))))
  end.

(* IV: 0/0 when all three times agree; x/0 is an infinity and refused *)
Definition coefficient {B} (t1 t2 t : R) (f : R -> B) : res B :=
  if Req_EM_T t1 t2 then (if Req_EM_T t t1 then UB else Throw)
  else let c := (t - t1) / (t2 - t1) in if rltb c 0 || rltb 1 c then Throw else Ok (f c).
Definition interp_vector (t1 t2 : R) (a b : vec3) (t : R) : res vec3 := coefficient t1 t2 t (fun c => vadd a (vscale c (vsub b a))).
(* VE; the scripts call it with three columns *)
Definition compute_vector_errors (gt l : list (R * vec3)) : res (errors_out vec3) :=
  errors (fun v => v) interp_vector (fun v => v) (fun g v => vsub v g) (fun pg pv g v => vsub (vsub g pg) (vsub v pv)) gt l.

(* A \ B of rigid 4x4 matrices *)
Definition ldiv (a b : iso) : iso := imul (iinv a) b.
(* PM; quat2rotm normalises the quaternion.  A quaternion of zero length gives no number; the theorems exclude it *)
Definition pose_to_matrix (p : mpose) : iso := to_transform (mp_pos p) (qnormalise (mp_ori p)).

Section Scripts.
(* quatinterp with method slerp, rotm2quat *)
Variable mixq : quat -> quat -> R -> quat.
Variable r2q : mat3 -> quat.

(* MP *)
Definition matrix_to_pose (t : iso) : mpose := mkMP (tr t) (r2q (lin t)).
(* IT with the matrix built from it, PE 37-38, AF 17-18, JT 22 *)
Definition interp_transform (t1 t2 : R) (p1 p2 : mpose) (t : R) : res iso :=
  coefficient t1 t2 t (fun c => to_transform (vadd (mp_pos p1) (vscale c (vsub (mp_pos p2) (mp_pos p1)))) (qnormalise (mixq (qnormalise (mp_ori p1)) (qnormalise (mp_ori p2)) c))).
(* PE *)
Definition compute_pose_errors (gt l : list (R * mpose)) : res (errors_out iso) :=
  errors pose_to_matrix interp_transform pose_to_matrix (fun g x => ldiv g x) (fun pg px g x => ldiv (ldiv pg g) (ldiv px x)) gt l.

(* RT 7-14 *)
Fixpoint recompute_loop (prev prev_aligned : iso) (l : list (R * mpose)) : list (R * mpose) :=
  match l with
  | [] => []
  | (t, p) :: l' => let T := pose_to_matrix p in let aligned := imul prev_aligned (ldiv prev T) in (t, matrix_to_pose aligned) :: recompute_loop T aligned l'
  end.
(* RT; poses(1) of an empty trajectory is an index error *)
Definition recompute_trajectory (l : list (R * mpose)) (first : mpose) : res (list (R * mpose)) :=
  match l with [] => Throw | (t, p) :: l' => Ok ((t, first) :: recompute_loop (pose_to_matrix p) (pose_to_matrix first) l') end.
(* AF *)
Definition align_to_first_pose (ref l : list (R * mpose)) : res (list (R * mpose)) :=
  match l with
  | [] => Throw
  | (t, _) :: _ => rbind (at_time pose_to_matrix interp_transform (advance None ref t) t) (fun g => recompute_trajectory l (matrix_to_pose g))
  end.
(* TL *)
Fixpoint length_loop (prev : iso) (l : list mpose) : R :=
  match l with [] => 0 | p :: l' => let T := pose_to_matrix p in vnorm (tr (ldiv prev T)) + length_loop T l' end.
Definition compute_trajectory_length (l : list mpose) : res R := match l with [] => Throw | p :: l' => Ok (length_loop (pose_to_matrix p) l') end.

(* JT 13-16: traj_index stays at the last element *)
Fixpoint advance_within {A} (before : option (R * A)) (rest : list (R * A)) (t : R) : option (R * A) * list (R * A) :=
  match rest with
  | e :: r => match r with [] => (before, rest) | _ => if rleb (fst e) t then advance_within (Some e) r t else (before, rest) end
  | [] => (before, [])
  end.
(* JT 12-24; traj_index - 1 = 0 is an index error *)
Fixpoint interpolate_loop (before : option (R * mpose)) (rest : list (R * mpose)) (refs : list R) : res (list (R * mpose)) :=
  match refs with
  | [] => Ok []
  | t :: refs' =>
      let z := advance_within before rest t in
      match fst z, snd z with
      | Some b, e :: _ => rbind (interp_transform (fst b) (fst e) (snd b) (snd e) t) (fun T => rbind (interpolate_loop (fst z) (snd z) refs') (fun r => Ok ((t, matrix_to_pose T) :: r)))
      | _, _ => Throw
      end
  end.
(* JT *)
Definition interpolate_trajectory (refs : list R) (l : list (R * mpose)) : res (list (R * mpose)) :=
  match refs, l with
  | t :: _, first :: _ => if rltb t (fst first) || rltb (fst (last l first)) (last refs t) then Throw else interpolate_loop None l refs
  | _, _ => Throw
  end.

(* AT.  A value that is not a number is None; MATLAB's max and min ignore it, so that min(max(NaN, -m), m) is -m *)
Record align_params := mkAP { ap_gamma : R; ap_eta : R; ap_iterations : nat; ap_max_t : R; ap_max_r : R }.
Definition clamp (m : R) (x : option R) : R := match x with Some y => Rmin (Rmax y (- m)) m | None => - m end.
Definition clamp3 (m : R) (v : option vec3) : vec3 :=
  match v with Some (x, y, z) => (clamp m (Some x), clamp m (Some y), clamp m (Some z)) | None => (clamp m None, clamp m None, clamp m None) end.
(* AT 31-38: loss, rotational and translational part of the gradient; (aligned position, reference position) of each pose, w = gamma^(i-1) *)
Fixpoint loss_sums (Rc : mat3) (tc : vec3) (gamma w : R) (l : list (vec3 * vec3)) : R * vec3 * vec3 :=
  match l with
  | [] => (0, v0, v0)
  | (t1, tref) :: l' =>
      let d := vsub (vadd (mapply Rc t1) tc) tref in
      let '(s, gr, gt) := loss_sums Rc tc gamma (w * gamma) l' in
      (w * (vnorm d) ^ 2 + s, vadd (vscale w (mapply (Geo.skew t1) d)) gr, vadd (vscale w d) gt)
  end.
(* AT 48: axang2rotm; 0/0 for the zero vector *)
Definition correction (r : vec3) : option mat3 := if Req_EM_T (vnorm r) 0 then None else Some (aa_matrix (vnorm r) (vscale (/ vnorm r) r)).
Record astate := mkAS { as_r : vec3; as_t : vec3; as_R : option mat3 }.
(* AT 28-48 *)
Definition align_step (p : align_params) (l : list (vec3 * vec3)) (s : astate) : astate :=
  let g := match as_R s with
           | Some Rc => let '(_, gr, gt) := loss_sums Rc (as_t s) (ap_gamma p) 1 l in (Some (vscale (ap_eta p) (vscale 2 gr)), Some (vscale (ap_eta p) (vscale 2 gt)))
           | None => (None, None)
           end in
  let r := vsub (as_r s) (clamp3 (ap_max_r p) (fst g)) in
  mkAS r (vsub (as_t s) (clamp3 (ap_max_t p) (snd g))) (correction r).
Fixpoint align_steps (p : align_params) (l : list (vec3 * vec3)) (n : nat) (s : astate) : astate :=
  match n with O => s | S n' => align_steps p l n' (align_step p l s) end.
Definition astate0 : astate := mkAS v0 v0 (Some mI).
(* AT 66-68: what is printed: the loss of the first and of the last iteration, -1 where it was not set; NaN is None *)
Definition loss_at (p : align_params) (l : list (vec3 * vec3)) (n : nat) : option R :=
  let s := align_steps p l n astate0 in match as_R s with Some Rc => Some (fst (fst (loss_sums Rc (as_t s) (ap_gamma p) 1 l))) | None => None end.
Definition initial_loss p l : option R := if Nat.eqb (ap_iterations p) 0 then Some (-1) else loss_at p l 0.
Definition final_loss p l : option R := if Nat.leb (ap_iterations p) 1 then Some (-1) else loss_at p l (ap_iterations p - 1).
(* AT 4-14, 56-61; rotm2quat of NaN is not followed further: UB *)
Definition align_trajectory (p : align_params) (ref l : list (R * mpose)) : res (list (R * mpose)) :=
  rbind (interpolate_trajectory (map fst l) ref) (fun iref =>
  match iref with
  | [] => Throw
  | (_, first) :: _ =>
      rbind (recompute_trajectory l first) (fun al =>
      let s := align_steps p (combine (map (fun e => mp_pos (snd e)) al) (map (fun e => mp_pos (snd e)) iref)) (ap_iterations p) astate0 in
      match as_R s with
      | None => UB
      | Some Rc => recompute_trajectory l (matrix_to_pose (imul (mkIso Rc (as_t s)) (pose_to_matrix first)))
      end)
  end).
End Scripts.

(* FT 10-30: ids of each frame with the number of frames they have been tracked for; counts stay below 2^31.  Max of an empty frame (27) cannot be
   assigned *)
Definition tracked_for (last : list (Z * Z)) (id : Z) : Z := match find (fun e => Z.eqb (fst e) id) last with Some e => (snd e + 1)%Z | None => 1%Z end.
Fixpoint track_frames (last : list (Z * Z)) (frames : list (list Z)) : res (list (list Z)) :=
  match frames with
  | [] => Ok []
  | [] :: _ => Throw
  | ids :: frames' =>
      let t := map (tracked_for last) ids in
      rbind (track_frames (combine ids t) frames') (fun r => Ok (t :: r))
  end.
Definition zmax (l : list Z) : Z := match l with [] => 0%Z | x :: l' => fold_left Z.max l' x end.
Definition zmin (l : list Z) : Z := match l with [] => 0%Z | x :: l' => fold_left Z.min l' x end.
Definition zmean (l : list Z) : R := IZR (fold_right Z.add 0%Z l) / INR (length l).
Record track_stats := mkTS { ts_tracked : list (list Z); ts_bins : list (list nat); ts_mean : list R; ts_min : list Z; ts_max : list Z; ts_longest : Z }.
(* FT; without frames zeros(0, []) (32) fails *)
Definition compute_frame_track_statistics (frames : list (list Z)) : res track_stats :=
  match frames with
  | [] => Throw
  | _ => rbind (track_frames [] frames) (fun t =>
      let longest := zmax (map zmax t) in
      Ok (mkTS t (map (fun f => map (fun d => List.length (filter (Z.eqb (Z.of_nat (S d))) f)) (seq 0 (Z.to_nat longest))) t) (map zmean t) (map zmin t) (map zmax t) longest))
  end.
(* TR: tracked ./ previous total; 0/0 is NaN, x/0 infinite and made NaN (7) *)
Definition fraction_of (tracked total : nat) : option R := match total with O => None | _ => Some (INR tracked / INR total) end.
Definition compute_track_retention (counts : list (nat * nat)) : list (option R) :=
  match counts with [] => [None] | _ => None :: map (fun p => fraction_of (fst (snd p)) (snd (fst p))) (combine counts (tl counts)) end.
(* ES 38-40: mean of those that are numbers; none: 0/0 *)
Definition numbers (l : list (option R)) : list R := flat_map (fun x => match x with Some r => [r] | None => [] end) l.
Definition mean_retention (l : list (option R)) : option R := match numbers l with [] => None | n => Some (fold_right Rplus 0 n / INR (List.length n)) end.
