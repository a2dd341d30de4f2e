(* Properties C120-C121: reports of the evaluation scripts. Proofs in EvDataProofs.v, EvDataMore.v; cases in EvDataEx.v. *)
From Coq Require Import ZArith Reals List.
Import ListNotations.
Open Scope R_scope.
From Verif Require Import Base Interp Geo EgModel EgProofs MsModel RoModel RoSpec BfModel EvModel EvSpec EvProofs EvPose EvMove EvInter EvAlign EvSelf EvTrack EvData EvDataSpec EvDataProofs EvDataMore EvDataEx.

(* C120 *)
Theorem C120_exists :
  forall (mixq : quat -> quat -> R -> quat) (r2q r2a : mat3 -> quat) (q2a : quat -> quat) (b : bounds) (first : bool) 
      (p : align_params) (gt : list odom) (odoms : list (list odom)),
    ordered gt ->
    (forall msgs : list odom, In msgs odoms -> ordered msgs) ->
    (exists d : pose_report, compute_pose_data mixq r2q r2a q2a b first false p gt odoms = Ok d) <->
    (exists ref : list odom,
       reference b gt ref /\
       ref <> [] /\ (forall msgs : list odom, In msgs odoms -> exists m : odom, In m msgs /\ covered (stamped od_pose ref) (stamp_of m))).
Proof. exact (@pose_report_exists). Qed.
Theorem C120_never_undefined :
  forall (mixq : quat -> quat -> R -> quat) (r2q r2a : mat3 -> quat) (q2a : quat -> quat) (b : bounds) (first : bool) 
      (p : align_params) (gt : list odom) (odoms : list (list odom)), compute_pose_data mixq r2q r2a q2a b first false p gt odoms <> UB.
Proof. exact (@pose_report_defined). Qed.
Theorem C120_both_refused :
  forall (mixq : quat -> quat -> R -> quat) (r2q r2a : mat3 -> quat) (q2a : quat -> quat) (b : bounds) (p : align_params) 
      (gt : list odom) (odoms : list (list odom)), compute_pose_data mixq r2q r2a q2a b true true p gt odoms = Throw.
Proof. exact (@both_refused). Qed.
Theorem C120_report :
  forall (mixq : quat -> quat -> R -> quat) (r2q r2a : mat3 -> quat) (q2a : quat -> quat),
    stays_unit mixq ->
    keeps_ends mixq ->
    reads_rotation r2q ->
    reads_axis r2a ->
    reads_quaternion q2a ->
    forall (b : bounds) (first fit : bool) (p : align_params) (gt : list odom) (odoms : list (list odom)) (d : pose_report),
    0 <= ap_max_r p ->
    0 <= ap_max_t p ->
    ordered gt ->
    posed gt ->
    (forall msgs : list odom, In msgs odoms -> posed msgs) ->
    compute_pose_data mixq r2q r2a q2a b first fit p gt odoms = Ok d ->
    exists ref : list odom,
      reference b gt ref /\
      tk_length (pr_gt d) = path_length (map (fun m : odom => mp_pos (od_pose m)) ref) /\
      tk_traj (pr_gt d) = stamped od_pose ref /\
      track_says (pr_gt d) /\
      Datatypes.length (pr_entries d) = Datatypes.length odoms /\
      (forall (i : nat) (msgs : list odom),
       nth_error odoms i = Some msgs ->
       exists (e : pose_entry) (kept : list odom) (n : iso),
         nth_error (pr_entries d) i = Some e /\
         in_reference ref msgs kept /\
         kept <> [] /\
         motion n /\
         says mixq ref kept n e /\
         (first = false -> fit = false -> n = iid) /\
         (first = true ->
          exists (m : odom) (rest : list odom) (g : iso),
            kept = m :: rest /\ value_at pose_to_matrix (pose_between mixq) (stamped od_pose ref) (stamp_of m) g /\ imul n (matrix_of m) = g)).
Proof. exact (@pose_report_says). Qed.
Theorem C120_angle_unique :
  forall (m : mat3) (a b : R), turn_angle m a -> turn_angle m b -> a = b.
Proof. exact (@turn_angle_unique). Qed.
Theorem C120_angle_zero :
  forall m : mat3, proper m -> turn_angle m 0 <-> m = mI.
Proof. exact (@turn_angle_zero). Qed.
Theorem C120_rmse_between :
  forall (l : list R) (r lo hi : R),
    root_mean_square l (Some r) -> 0 <= lo -> 0 <= hi -> (forall x : R, In x l -> lo <= x <= hi) -> lo <= r <= hi.
Proof. exact (@root_between). Qed.
Theorem C120_rmse_zero :
  forall (l : list R) (r : R), root_mean_square l (Some r) -> r = 0 <-> (forall x : R, In x l -> x = 0).
Proof. exact (@root_zero). Qed.
Theorem C120_rmse_unique :
  forall (l : list R) (r r' : option R), root_mean_square l r -> root_mean_square l r' -> r = r'.
Proof. exact (@root_unique). Qed.
Theorem C120_alignment_keeps :
  forall (mixq : quat -> quat -> R -> quat) (r2q r2a : mat3 -> quat) (q2a : quat -> quat),
    stays_unit mixq ->
    keeps_ends mixq ->
    reads_rotation r2q ->
    forall (b : bounds) (first fit : bool) (p : align_params) (gt : list odom) (odoms : list (list odom)) (d d' : pose_report),
    0 <= ap_max_r p ->
    0 <= ap_max_t p ->
    ordered gt ->
    posed gt ->
    (forall msgs : list odom, In msgs odoms -> posed msgs) ->
    compute_pose_data mixq r2q r2a q2a b false false p gt odoms = Ok d ->
    compute_pose_data mixq r2q r2a q2a b first fit p gt odoms = Ok d' ->
    pr_gt d' = pr_gt d /\
    (forall (i : nat) (e e' : pose_entry),
     nth_error (pr_entries d) i = Some e ->
     nth_error (pr_entries d') i = Some e' ->
     pe_rpe e' = pe_rpe e /\ tk_length (pe_track e') = tk_length (pe_track e) /\ es_t (pe_ape e') = es_t (pe_ape e)).
Proof. exact (@alignment_keeps). Qed.
Theorem C120_frame_of_estimate :
  forall (mixq : quat -> quat -> R -> quat) (r2q r2a : mat3 -> quat) (q2a : quat -> quat) (b : bounds) (first fit : bool) 
      (p : align_params) (gt : list odom) (odoms odoms' : list (list odom)),
    first || fit = true ->
    (forall msgs : list odom, In msgs odoms -> posed msgs) ->
    Forall2 same_run odoms odoms' ->
    compute_pose_data mixq r2q r2a q2a b first fit p gt odoms' = compute_pose_data mixq r2q r2a q2a b first fit p gt odoms.
Proof. exact (@aligned_frame_free). Qed.
Theorem C120_moved_together :
  forall (mixq : quat -> quat -> R -> quat) (r2q r2a : mat3 -> quat) (q2a : quat -> quat),
    stays_unit mixq ->
    turns_along mixq ->
    forall (b : bounds) (p : align_params) (gt : list odom) (odoms : list (list odom)) (d : pose_report) (t : vec3) (q : quat),
    qunit q ->
    posed gt ->
    (forall msgs : list odom, In msgs odoms -> posed msgs) ->
    compute_pose_data mixq r2q r2a q2a b false false p gt odoms = Ok d ->
    exists d' : pose_report,
      compute_pose_data mixq r2q r2a q2a b false false p (map (moved_msg t q) gt) (map (map (moved_msg t q)) odoms) = Ok d' /\
      tk_length (pr_gt d') = tk_length (pr_gt d) /\
      Forall2 (fun e e' : pose_entry => pe_ape e' = pe_ape e /\ pe_rpe e' = pe_rpe e /\ tk_length (pe_track e') = tk_length (pe_track e))
        (pr_entries d) (pr_entries d').
Proof. exact (@moved_together). Qed.
Theorem C120_recorded :
  forall (mixq : quat -> quat -> R -> quat) (r2q r2a : mat3 -> quat) (q2a : quat -> quat),
    stays_unit mixq ->
    keeps_ends mixq ->
    reads_rotation r2q ->
    reads_axis r2a ->
    reads_quaternion q2a ->
    forall (b : bounds) (first : bool) (p : align_params) (gt : list odom) (odoms : list (list odom)) (d : pose_report) 
      (i : nat) (msgs : list odom) (e : pose_entry),
    0 <= ap_max_r p ->
    0 <= ap_max_t p ->
    strictly gt ->
    posed gt ->
    (forall l : list odom, In l odoms -> posed l) ->
    compute_pose_data mixq r2q r2a q2a b first false p gt odoms = Ok d ->
    nth_error odoms i = Some msgs ->
    nth_error (pr_entries d) i = Some e ->
    (forall m : odom,
     In m msgs -> exists m' : odom, In m' gt /\ stamp_of m' = stamp_of m /\ od_pose m' = od_pose m /\ wanted b (stamped od_pose gt) (stamp_of m)) ->
    es_rmse1 (pe_ape e) = Some 0 /\
    es_rmse2 (pe_ape e) = Some 0 /\
    (forall x : R, In x (es_norm1 (pe_rpe e)) -> x = 0) /\
    (forall x : R, In x (es_norm2 (pe_rpe e)) -> x = 0) /\
    es_rmse1 (pe_rpe e) = (if (2 <=? Datatypes.length (es_t (pe_ape e)))%nat then Some 0 else None).
Proof. exact (@recorded_no_error). Qed.
Theorem C120_other_time_refuted :
  exists gt good bad : list odom,
      strictly gt /\
      posed gt /\
      strictly bad /\
      (exists d : pose_report, the_report None false false params0 gt [good] = Ok d) /\
      (forall (first : bool) (d : pose_report), the_report None first false params0 gt [good; bad] <> Ok d).
Proof. exact (@other_time_refuted). Qed.
Theorem C120_relative_number_refuted :
  exists (gt msgs : list odom) (d : pose_report) (e : pose_entry),
      strictly gt /\
      posed gt /\
      the_report None false false params0 gt [msgs] = Ok d /\
      nth_error (pr_entries d) 0 = Some e /\ es_rmse1 (pe_ape e) = Some 0 /\ es_rmse1 (pe_rpe e) = None.
Proof. exact (@relative_number_refuted). Qed.
Theorem C120_stamps :
  forall m : odom, stamp_of m * 1000000000 = IZR (od_sec m * 1000000000 + od_nsec m).
Proof. exact (@stamp_seconds). Qed.
Theorem C120_stamp_order :
  forall a b : odom,
    (0 <= od_nsec a < 1000000000)%Z ->
    (0 <= od_nsec b < 1000000000)%Z -> stamp_of a < stamp_of b <-> (od_sec a < od_sec b)%Z \/ od_sec a = od_sec b /\ (od_nsec a < od_nsec b)%Z.
Proof. exact (@stamp_order). Qed.

(* C121 *)
Theorem C121_exists :
  forall (b : bounds) (gt : list odom) (odoms : list (list odom)),
    ordered gt ->
    (forall msgs : list odom, In msgs odoms -> ordered msgs) ->
    (exists ref : list odom, reference b gt ref /\ ref <> []) -> exists es : list twist_entry, compute_twist_data b gt odoms = Ok es.
Proof. exact (@twist_report_exists). Qed.
Theorem C121_report :
  forall (b : bounds) (gt : list odom) (odoms : list (list odom)) (es : list twist_entry),
    ordered gt ->
    odoms <> [] ->
    compute_twist_data b gt odoms = Ok es ->
    exists ref : list odom,
      reference b gt ref /\
      ref <> [] /\
      Datatypes.length es = Datatypes.length odoms /\
      (forall (i : nat) (msgs : list odom),
       nth_error odoms i = Some msgs ->
       exists (e : twist_entry) (kept : list odom), nth_error es i = Some e /\ in_reference ref msgs kept /\ twist_says ref kept e).
Proof. exact (@twist_report_says). Qed.
Theorem C121_other_time :
  exists (es : list twist_entry) (e : twist_entry),
      compute_twist_data None truth [later] = Ok es /\ nth_error es 0 = Some e /\ te_t e = [] /\ es_rmse1 (te_ae e) = None.
Proof. exact (@other_time_twist). Qed.

Print Assumptions C120_exists.
Print Assumptions C120_never_undefined.
Print Assumptions C120_both_refused.
Print Assumptions C120_report.
Print Assumptions C120_angle_unique.
Print Assumptions C120_angle_zero.
Print Assumptions C120_rmse_between.
Print Assumptions C120_rmse_zero.
Print Assumptions C120_rmse_unique.
Print Assumptions C120_alignment_keeps.
Print Assumptions C120_frame_of_estimate.
Print Assumptions C120_moved_together.
Print Assumptions C120_recorded.
Print Assumptions C120_other_time_refuted.
Print Assumptions C120_relative_number_refuted.
Print Assumptions C120_stamps.
Print Assumptions C120_stamp_order.
Print Assumptions C121_exists.
Print Assumptions C121_report.
Print Assumptions C121_other_time.
