(* Properties C111-C115: the evaluation scripts. Proofs in EvProofs.v, EvPose.v, EvMove.v, EvInter.v, EvAlign.v, EvSelf.v, EvTrack.v; cases in EvExamples.v. *)
From Coq Require Import ZArith Reals List.
Import ListNotations.
Open Scope R_scope.
From Verif Require Import Base Interp Geo EgModel EgProofs MsModel RoModel RoSpec BfModel EvModel EvSpec EvProofs EvPose EvMove EvInter EvAlign EvSelf EvTrack EvExamples.

(* C111 *)
Theorem C111_never_undefined :
  forall (mixq : quat -> quat -> R -> quat) (gt l : list (R * mpose)), compute_pose_errors mixq gt l <> UB.
Proof. exact (@pose_errors_defined). Qed.
Theorem C111_always_reports :
  forall (mixq : quat -> quat -> R -> quat) (gt l : list (R * mpose)),
    gt <> [] -> in_order gt -> in_order l -> exists o : errors_out iso, compute_pose_errors mixq gt l = Ok o.
Proof. exact (@pose_errors_total). Qed.
Theorem C111_report :
  forall mixq : quat -> quat -> R -> quat,
    stays_unit mixq ->
    forall (gt l : list (R * mpose)) (o : errors_out iso),
    in_order gt ->
    all_oriented gt ->
    compute_pose_errors mixq gt l = Ok o ->
    reports pose_to_matrix (pose_between mixq) pose_to_matrix (fun g x : iso => imul (iinv g) x)
      (fun pg px g x : iso => imul (iinv (imul (iinv pg) g)) (imul (iinv px) x)) gt l (eo_abs o) (eo_abs_t o) (eo_rel o) 
      (eo_rel_t o).
Proof. exact (@pose_errors_report). Qed.
Theorem C111_zero_exactly_when_equal :
  forall mixq : quat -> quat -> R -> quat,
    stays_unit mixq ->
    forall (gt : list (R * mpose)) (t : R) (g x : iso),
    all_oriented gt -> value_at pose_to_matrix (pose_between mixq) gt t g -> imul (iinv g) x = iid <-> x = g.
Proof. exact (@absolute_zero). Qed.
Theorem C111_zero_relative_motion :
  forall pg px g x : iso, rigid pg -> rigid g -> imul (iinv (imul (iinv pg) g)) (imul (iinv px) x) = iid <-> imul (iinv px) x = imul (iinv pg) g.
Proof. exact (@relative_zero). Qed.
Theorem C111_recorded_has_no_error :
  forall mixq : quat -> quat -> R -> quat,
    stays_unit mixq ->
    keeps_ends mixq ->
    forall (gt l : list (R * mpose)) (o : errors_out iso),
    increasing gt ->
    all_oriented gt ->
    incl l gt ->
    compute_pose_errors mixq gt l = Ok o -> (forall e : iso, In e (eo_abs o) -> e = iid) /\ (forall e : iso, In e (eo_rel o) -> e = iid).
Proof. exact (@no_error). Qed.
Theorem C111_moved_together :
  forall mixq : quat -> quat -> R -> quat,
    stays_unit mixq ->
    turns_along mixq ->
    forall (t : vec3) (q : quat) (gt l : list (R * mpose)),
    qunit q -> all_oriented gt -> all_oriented l -> compute_pose_errors mixq (moved_all t q gt) (moved_all t q l) = compute_pose_errors mixq gt l.
Proof. exact (@errors_together). Qed.
Theorem C111_relative_estimate_moved :
  forall mixq : quat -> quat -> R -> quat,
    stays_unit mixq ->
    forall (n : iso) (gt l l' : list (R * mpose)) (o : errors_out iso),
    rigid n ->
    all_oriented gt ->
    all_oriented l ->
    displaced n l l' ->
    compute_pose_errors mixq gt l = Ok o ->
    exists a : list iso, compute_pose_errors mixq gt l' = Ok {| eo_abs := a; eo_abs_t := eo_abs_t o; eo_rel := eo_rel o; eo_rel_t := eo_rel_t o |}.
Proof. exact (@relative_displaced). Qed.
Theorem C111_relative_reference_moved :
  forall mixq : quat -> quat -> R -> quat,
    stays_unit mixq ->
    turns_along mixq ->
    forall (t : vec3) (q : quat) (gt l : list (R * mpose)) (o : errors_out iso),
    qunit q ->
    all_oriented gt ->
    all_oriented l ->
    compute_pose_errors mixq gt l = Ok o ->
    exists a : list iso,
      compute_pose_errors mixq (moved_all t q gt) l = Ok {| eo_abs := a; eo_abs_t := eo_abs_t o; eo_rel := eo_rel o; eo_rel_t := eo_rel_t o |}.
Proof. exact (@relative_reference). Qed.
Theorem C111_scaled_quaternion :
  forall (x : vec3) (q : quat) (k : R),
    0 < k -> qdot q q <> 0 -> pose_to_matrix {| mp_pos := x; mp_ori := qlin k 0 q q |} = pose_to_matrix {| mp_pos := x; mp_ori := q |}.
Proof. exact (@pose_scaled). Qed.
Theorem C111_matrix_of_pose :
  forall p : mpose, qunit (mp_ori p) -> pose_to_matrix p = to_transform (mp_pos p) (mp_ori p).
Proof. exact (@pose_unit). Qed.
Theorem C111_matrix_of_moved_pose :
  forall (t : vec3) (q : quat) (l : list (R * mpose)), qunit q -> all_oriented l -> displaced (to_transform t q) l (moved_all t q l).
Proof. exact (@displaced_moved). Qed.

(* C112 *)
Theorem C112_recomputed :
  forall r2q : mat3 -> quat,
    reads_rotation r2q ->
    forall (l : list (R * mpose)) (first : mpose),
    all_oriented l ->
    oriented first ->
    match l with
    | [] => recompute_trajectory r2q l first = Throw
    | (t, p) :: _ =>
        exists l' : list (R * mpose),
          recompute_trajectory r2q l first = Ok ((t, first) :: l') /\
          displaced (imul (pose_to_matrix first) (iinv (pose_to_matrix p))) l ((t, first) :: l') /\ all_oriented ((t, first) :: l')
    end.
Proof. exact (@recompute_is). Qed.
Theorem C112_recomputed_relative :
  forall (mixq : quat -> quat -> R -> quat) (r2q : mat3 -> quat),
    stays_unit mixq ->
    reads_rotation r2q ->
    forall (gt l : list (R * mpose)) (first : mpose) (l' : list (R * mpose)) (o : errors_out iso),
    all_oriented gt ->
    all_oriented l ->
    oriented first ->
    recompute_trajectory r2q l first = Ok l' ->
    compute_pose_errors mixq gt l = Ok o ->
    exists a : list iso, compute_pose_errors mixq gt l' = Ok {| eo_abs := a; eo_abs_t := eo_abs_t o; eo_rel := eo_rel o; eo_rel_t := eo_rel_t o |}.
Proof. exact (@recompute_relative). Qed.
Theorem C112_first_pose :
  forall (mixq : quat -> quat -> R -> quat) (r2q : mat3 -> quat),
    stays_unit mixq ->
    reads_rotation r2q ->
    forall ref l l' : list (R * mpose),
    in_order ref ->
    all_oriented ref ->
    all_oriented l ->
    align_to_first_pose mixq r2q ref l = Ok l' ->
    exists (t : R) (p : mpose) (rest : list (R * mpose)) (first : mpose) (g : iso),
      l = (t, p) :: rest /\
      nth_error l' 0 = Some (t, first) /\
      value_at pose_to_matrix (pose_between mixq) ref t g /\
      pose_to_matrix first = g /\ displaced (imul g (iinv (pose_to_matrix p))) l l' /\ all_oriented l'.
Proof. exact (@aligned_first). Qed.
Theorem C112_first_pose_always :
  forall (mixq : quat -> quat -> R -> quat) (r2q : mat3 -> quat) (ref : list (R * mpose)) (t : R) (p : mpose) (l : list (R * mpose)),
    in_order ref -> covered ref t -> exists l' : list (R * mpose), align_to_first_pose mixq r2q ref ((t, p) :: l) = Ok l'.
Proof. exact (@aligned_total). Qed.
Theorem C112_first_pose_error :
  forall (mixq : quat -> quat -> R -> quat) (r2q : mat3 -> quat),
    stays_unit mixq ->
    reads_rotation r2q ->
    forall (ref l l' : list (R * mpose)) (o : errors_out iso),
    in_order ref ->
    all_oriented ref ->
    all_oriented l -> align_to_first_pose mixq r2q ref l = Ok l' -> compute_pose_errors mixq ref l' = Ok o -> nth_error (eo_abs o) 0 = Some iid.
Proof. exact (@aligned_no_error). Qed.
Theorem C112_length_is :
  forall l : list mpose, l <> [] -> (forall e : mpose, In e l -> oriented e) -> compute_trajectory_length l = Ok (path_length (map mp_pos l)).
Proof. exact (@length_is). Qed.
Theorem C112_length_moved :
  forall (n : iso) (l l' : list (R * mpose)),
    rigid n ->
    all_oriented l -> all_oriented l' -> displaced n l l' -> compute_trajectory_length (map snd l') = compute_trajectory_length (map snd l).
Proof. exact (@length_displaced). Qed.
Theorem C112_length_covers :
  forall (l : list vec3) (i j : nat) (p q : vec3),
    nth_error l i = Some p -> nth_error l j = Some q -> (i <= j)%nat -> vnorm (vsub q p) <= path_length l.
Proof. exact (@path_covers). Qed.
Theorem C112_interpolated :
  forall (mixq : quat -> quat -> R -> quat) (r2q : mat3 -> quat),
    stays_unit mixq ->
    keeps_ends mixq ->
    reads_rotation r2q ->
    forall (refs : list R) (l r : list (R * mpose)),
    in_order l ->
    all_oriented l ->
    interpolate_trajectory mixq r2q refs l = Ok r ->
    map fst r = refs /\
    (forall (t : R) (p : mpose), In (t, p) r -> value_at pose_to_matrix (pose_between mixq) l t (pose_to_matrix p) /\ oriented p).
Proof. exact (@interpolate_sound). Qed.
Theorem C112_interpolated_always :
  forall (mixq : quat -> quat -> R -> quat) (r2q : mat3 -> quat) (refs : list R) (l : list (R * mpose)),
    increasing l ->
    (2 <= Datatypes.length l)%nat ->
    refs <> [] ->
    (forall (i j : nat) (s t : R), nth_error refs i = Some s -> nth_error refs j = Some t -> (i <= j)%nat -> s <= t) ->
    (forall t : R, In t refs -> covered l t) -> exists r : list (R * mpose), interpolate_trajectory mixq r2q refs l = Ok r.
Proof. exact (@interpolate_total). Qed.
Theorem C112_interpolated_number_refuted :
  exists (refs : list R) (l : list (R * mpose)),
      in_order l /\ all_oriented l /\ (forall t : R, In t refs -> covered l t) /\ interpolate_trajectory mix_turn quat_of refs l = UB.
Proof. exact (@interpolation_number_refuted). Qed.
Theorem C112_single_pose_refuted :
  exists (t : R) (p : mpose), covered [(t, p)] t /\ oriented p /\ interpolate_trajectory mix_turn quat_of [t] [(t, p)] = Throw.
Proof. exact (@single_pose_refuted). Qed.

(* C113 *)
Theorem C113_never_undefined :
  forall gt l : list (R * vec3), compute_vector_errors gt l <> UB.
Proof. exact (@vector_errors_defined). Qed.
Theorem C113_always_reports :
  forall gt l : list (R * vec3), gt <> [] -> in_order gt -> in_order l -> exists o : errors_out vec3, compute_vector_errors gt l = Ok o.
Proof. exact (@vector_errors_total). Qed.
Theorem C113_report :
  forall (gt l : list (R * vec3)) (o : errors_out vec3),
    in_order gt ->
    compute_vector_errors gt l = Ok o ->
    reports (fun v : vec3 => v) between_points (fun v : vec3 => v) (fun g v : vec3 => vsub v g)
      (fun pg pv g v : vec3 => vsub (vsub g pg) (vsub v pv)) gt l (eo_abs o) (eo_abs_t o) (eo_rel o) (eo_rel_t o).
Proof. exact (@vector_errors_report). Qed.
Theorem C113_relative :
  forall (gt l : list (R * vec3)) (o : errors_out vec3),
    in_order gt ->
    compute_vector_errors gt l = Ok o ->
    forall (i : nat) (a b : vec3),
    nth_error (eo_abs o) i = Some a -> nth_error (eo_abs o) (S i) = Some b -> nth_error (eo_rel o) i = Some (vsub a b).
Proof. exact (@vector_relative). Qed.
Theorem C113_relative_sign_refuted :
  exists (gt l : list (R * vec3)) (o : errors_out vec3) (a b r : vec3),
      increasing gt /\
      increasing l /\
      compute_vector_errors gt l = Ok o /\
      nth_error (eo_abs o) 0 = Some a /\ nth_error (eo_abs o) 1 = Some b /\ nth_error (eo_rel o) 0 = Some r /\ r <> vsub b a.
Proof. exact (@relative_sign_refuted). Qed.
Theorem C113_offset :
  forall (d : vec3) (gt l : list (R * vec3)) (o : errors_out vec3),
    compute_vector_errors gt l = Ok o ->
    exists o' : errors_out vec3,
      compute_vector_errors gt (map (fun e : R * vec3 => (fst e, vadd (snd e) d)) l) = Ok o' /\
      eo_abs o' = map (fun a : vec3 => vadd a d) (eo_abs o) /\ eo_abs_t o' = eo_abs_t o /\ eo_rel o' = eo_rel o /\ eo_rel_t o' = eo_rel_t o.
Proof. exact (@vector_offset). Qed.

(* C114 *)
Theorem C114_statistics :
  forall (frames : list (list Z)) (s : track_stats),
    compute_frame_track_statistics frames = Ok s ->
    Datatypes.length (ts_tracked s) = Datatypes.length frames /\
    Datatypes.length (ts_bins s) = Datatypes.length frames /\
    (1 <= ts_longest s <= Z.of_nat (Datatypes.length frames))%Z /\
    (exists (i : nat) (c : list Z), nth_error (ts_tracked s) i = Some c /\ In (ts_longest s) c) /\
    (forall (i : nat) (f : list Z),
     nth_error frames i = Some f ->
     exists (c : list Z) (b : list nat) (mean : R) (lo hi : Z),
       nth_error (ts_tracked s) i = Some c /\
       nth_error (ts_bins s) i = Some b /\
       nth_error (ts_mean s) i = Some mean /\
       nth_error (ts_min s) i = Some lo /\
       nth_error (ts_max s) i = Some hi /\
       Datatypes.length c = Datatypes.length f /\
       (forall (j : nat) (id : Z), nth_error f j = Some id -> exists k : nat, nth_error c j = Some (Z.of_nat k) /\ seen_for frames i id k) /\
       (In lo c /\ In hi c /\ (forall x : Z, In x c -> (lo <= x <= hi)%Z)) /\
       (1 <= lo)%Z /\
       (hi <= Z.of_nat (S i))%Z /\
       (hi <= ts_longest s)%Z /\
       mean = IZR (fold_right Z.add 0%Z c) / INR (Datatypes.length c) /\
       IZR lo <= mean <= IZR hi /\
       Datatypes.length b = Z.to_nat (ts_longest s) /\
       (forall d : nat, (d < Datatypes.length b)%nat -> nth_error b d = Some (count_occ Z.eq_dec c (Z.of_nat (S d)))) /\
       fold_right Nat.add 0%nat b = Datatypes.length f).
Proof. exact (@track_statistics). Qed.
Theorem C114_statistics_total :
  forall frames : list (list Z),
    frames <> [] -> (forall f : list Z, In f frames -> f <> []) -> exists s : track_stats, compute_frame_track_statistics frames = Ok s.
Proof. exact (@track_statistics_total). Qed.
Theorem C114_empty_frame :
  forall frames : list (list Z), In [] frames -> compute_frame_track_statistics frames = Throw.
Proof. exact (@track_statistics_empty). Qed.
Theorem C114_empty_frame_refuted :
  exists frames : list (list Z), Datatypes.length frames = 3%nat /\ compute_frame_track_statistics frames = Throw.
Proof. exact (@empty_frame_refuted). Qed.
Theorem C114_retention :
  forall counts : list (nat * nat),
    nth_error (compute_track_retention counts) 0 = Some None /\
    (forall i tracked1 total1 tracked2 total2 : nat,
     nth_error counts i = Some (tracked1, total1) ->
     nth_error counts (S i) = Some (tracked2, total2) ->
     nth_error (compute_track_retention counts) (S i) = Some match total1 with
                                                             | 0%nat => None
                                                             | S _ => Some (INR tracked2 / INR total1)
                                                             end).
Proof. exact (@retention_nth). Qed.
Theorem C114_retention_length :
  forall counts : list (nat * nat), Datatypes.length (compute_track_retention counts) = Nat.max 1 (Datatypes.length counts).
Proof. exact (@retention_length). Qed.
Theorem C114_retention_bounds :
  forall counts : list (nat * nat),
    (forall i a b c d : nat, nth_error counts i = Some (a, b) -> nth_error counts (S i) = Some (c, d) -> (c <= b)%nat) ->
    forall x : R, In (Some x) (compute_track_retention counts) -> 0 <= x <= 1.
Proof. exact (@retention_bounds). Qed.
Theorem C114_mean_bounds :
  forall (lo hi : R) (l : list (option R)) (m : R), (forall x : R, In (Some x) l -> lo <= x <= hi) -> mean_retention l = Some m -> lo <= m <= hi.
Proof. exact (@mean_between). Qed.
Theorem C114_mean_none :
  forall l : list (option R), mean_retention l = None <-> (forall x : R, ~ In (Some x) l).
Proof. exact (@mean_none). Qed.

(* C115 *)
Theorem C115_result :
  forall (mixq : quat -> quat -> R -> quat) (r2q : mat3 -> quat),
    stays_unit mixq ->
    keeps_ends mixq ->
    reads_rotation r2q ->
    forall (p : align_params) (ref l l' : list (R * mpose)),
    in_order ref ->
    all_oriented ref ->
    all_oriented l ->
    0 <= ap_max_r p ->
    0 <= ap_max_t p ->
    align_trajectory mixq r2q p ref l = Ok l' ->
    exists (t : R) (x : mpose) (rest : list (R * mpose)) (g : iso) (r tc : vec3) (Rc : mat3),
      l = (t, x) :: rest /\
      value_at pose_to_matrix (pose_between mixq) ref t g /\
      rotation_vector r Rc /\
      proper Rc /\
      within (INR (ap_iterations p) * ap_max_r p) r /\
      within (INR (ap_iterations p) * ap_max_t p) tc /\
      displaced (imul (imul {| lin := Rc; tr := tc |} g) (iinv (pose_to_matrix x))) l l' /\ all_oriented l'.
Proof. exact (@align_is). Qed.
Theorem C115_relative_kept :
  forall (mixq : quat -> quat -> R -> quat) (r2q : mat3 -> quat),
    stays_unit mixq ->
    keeps_ends mixq ->
    reads_rotation r2q ->
    forall (p : align_params) (ref gt l l' : list (R * mpose)) (o : errors_out iso),
    in_order ref ->
    all_oriented ref ->
    all_oriented l ->
    all_oriented gt ->
    0 <= ap_max_r p ->
    0 <= ap_max_t p ->
    align_trajectory mixq r2q p ref l = Ok l' ->
    compute_pose_errors mixq gt l = Ok o ->
    (exists a : list iso,
       compute_pose_errors mixq gt l' = Ok {| eo_abs := a; eo_abs_t := eo_abs_t o; eo_rel := eo_rel o; eo_rel_t := eo_rel_t o |}) /\
    compute_trajectory_length (map snd l') = compute_trajectory_length (map snd l).
Proof. exact (@align_relative). Qed.
Theorem C115_first_step :
  forall (p : align_params) (l : list (vec3 * vec3)),
    exists gr gt : vec3,
      as_r (align_step p l astate0) = vsub v0 (clamp3 (ap_max_r p) (Some (vscale (ap_eta p) gr))) /\
      as_t (align_step p l astate0) = vsub v0 (clamp3 (ap_max_t p) (Some (vscale (ap_eta p) gt))) /\
      (forall (u v : vec3) (Xs : list (R -> vec3)),
       Forall2 (fun (q : vec3 * vec3) (X : R -> vec3) => turns u (fst q) X) l Xs ->
       derivable_pt_lim (fun s : R => misfit (ap_gamma p) 1 (combine (map (fun X : R -> vec3 => vadd (X s) (vscale s v)) Xs) (map snd l))) 0
         (vdot u gr + vdot v gt)).
Proof. exact (@first_step). Qed.
Theorem C115_later_slope_refuted :
  exists (u : vec3) (theta : R) (p ref : vec3) (Rc : mat3),
      correction (vscale theta u) = Some Rc /\
      vdot u (vscale 2 (snd (fst (loss_sums Rc v0 1 1 [(p, ref)])))) = 2 /\
      (forall X : R -> vec3, turns u p X -> X theta = mapply Rc p /\ derivable_pt_lim (fun s : R => misfit 1 1 [(X s, ref)]) theta (-2)).
Proof. exact (@later_slope_refuted). Qed.
Theorem C115_self :
  forall (mixq : quat -> quat -> R -> quat) (r2q : mat3 -> quat),
    stays_unit mixq ->
    keeps_ends mixq ->
    reads_rotation r2q ->
    forall (p : align_params) (l : list (R * mpose)),
    increasing l ->
    all_oriented l ->
    (2 <= Datatypes.length l)%nat ->
    0 <= ap_max_r p ->
    0 <= ap_max_t p ->
    (ap_iterations p = 1%nat -> align_trajectory mixq r2q p l l = UB) /\
    (ap_iterations p = 2%nat ->
     0 < ap_max_r p ->
     exists (l' : list (R * mpose)) (Rc : mat3),
       align_trajectory mixq r2q p l l = Ok l' /\
       rotation_vector (ap_max_r p, ap_max_r p, ap_max_r p) Rc /\ displaced {| lin := Rc; tr := (ap_max_t p, ap_max_t p, ap_max_t p) |} l l').
Proof. exact (@align_self). Qed.
Theorem C115_self_refuted :
  exists (p : align_params) (l : list (R * mpose)),
      increasing l /\ all_oriented l /\ ap_iterations p = 1%nat /\ align_trajectory mix_turn quat_of p l l = UB.
Proof. exact (@self_alignment_refuted). Qed.
Theorem C115_printed_loss :
  forall (p : align_params) (l : list (vec3 * vec3)),
    initial_loss p l = (if (ap_iterations p =? 0)%nat then Some (-1) else Some (misfit (ap_gamma p) 1 l)) /\
    (ap_iterations p = 1%nat -> final_loss p l = Some (-1)) /\
    (forall (n : nat) (Rc : mat3),
     ap_iterations p = S (S n) ->
     as_R (align_steps p l (S n) astate0) = Some Rc ->
     final_loss p l = Some (misfit (ap_gamma p) 1 (placed Rc (as_t (align_steps p l (S n) astate0)) l))).
Proof. exact (@printed_loss). Qed.

Print Assumptions C111_never_undefined.
Print Assumptions C111_always_reports.
Print Assumptions C111_report.
Print Assumptions C111_zero_exactly_when_equal.
Print Assumptions C111_zero_relative_motion.
Print Assumptions C111_recorded_has_no_error.
Print Assumptions C111_moved_together.
Print Assumptions C111_relative_estimate_moved.
Print Assumptions C111_relative_reference_moved.
Print Assumptions C111_scaled_quaternion.
Print Assumptions C111_matrix_of_pose.
Print Assumptions C111_matrix_of_moved_pose.
Print Assumptions C112_recomputed.
Print Assumptions C112_recomputed_relative.
Print Assumptions C112_first_pose.
Print Assumptions C112_first_pose_always.
Print Assumptions C112_first_pose_error.
Print Assumptions C112_length_is.
Print Assumptions C112_length_moved.
Print Assumptions C112_length_covers.
Print Assumptions C112_interpolated.
Print Assumptions C112_interpolated_always.
Print Assumptions C112_interpolated_number_refuted.
Print Assumptions C112_single_pose_refuted.
Print Assumptions C113_never_undefined.
Print Assumptions C113_always_reports.
Print Assumptions C113_report.
Print Assumptions C113_relative.
Print Assumptions C113_relative_sign_refuted.
Print Assumptions C113_offset.
Print Assumptions C114_statistics.
Print Assumptions C114_statistics_total.
Print Assumptions C114_empty_frame.
Print Assumptions C114_empty_frame_refuted.
Print Assumptions C114_retention.
Print Assumptions C114_retention_length.
Print Assumptions C114_retention_bounds.
Print Assumptions C114_mean_bounds.
Print Assumptions C114_mean_none.
Print Assumptions C115_result.
Print Assumptions C115_relative_kept.
Print Assumptions C115_first_step.
Print Assumptions C115_later_slope_refuted.
Print Assumptions C115_self.
Print Assumptions C115_self_refuted.
Print Assumptions C115_printed_loss.
