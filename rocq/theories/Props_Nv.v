(* Properties C91-C94: navigation and IMU tools, serpent messages. Proofs in NvProofs.v; cases and refutations in NvExamples.v. *)
From Coq Require Import ZArith Reals List String.
From Verif Require Import Base Mx Interp Geo EgModel CvModel CvProofs EgProofs EgPose MsModel MsProofs MsPose NvModel NvSpec NvProofs NvExamples.
Import ListNotations.

(* C91 *)
Theorem C91_type_subscribed :
  forall (t : option string) (k : kind),
    subscribed t = Some k <->
    k = KTransform /\ (t = None \/ t = Some "TransformStamped"%string) \/
    k = KPose /\ t = Some "PoseStamped"%string \/ k = KPoseCov /\ t = Some "PoseWithCovarianceStamped"%string.
Proof. exact (@subscribed_iff). Qed.
Theorem C91_motions_combined :
  forall (k : kind) (l : list increment),
    (forall m : increment, In m l -> inc_ok k m) ->
    exists (s : cstate) (outs : list (modom * path)),
      combine_all k cstate0 l = Ok (s, outs) /\
      Datatypes.length outs = Datatypes.length l /\
      (forall (i : nat) (m : increment),
       nth_error l i = Some m ->
       exists (od : modom) (pa : path),
         nth_error outs i = Some (od, pa) /\
         motion_of (mpc_pose (mo_pose od)) = one_after_another (map inc_motion (firstn (S i) l)) /\
         h_stamp (mo_header od) = h_stamp (in_header m) /\
         h_stamp (pa_header pa) = h_stamp (in_header m) /\
         h_frame (pa_header pa) = MAP /\
         pa_poses pa =
         map (fun o : modom * path => ({| h_seq := 0; h_stamp := h_stamp (mo_header (fst o)); h_frame := NONE |}, mpc_pose (mo_pose (fst o))))
           (firstn (S i) outs)).
Proof. exact (@combined). Qed.
Theorem C91_no_uncertainty :
  forall (k : kind) (l : list increment) (s : cstate) (outs : list (modom * path)) (od : modom) (pa : path),
    (forall m : increment, In m l -> inc_ok k m) ->
    combine_all k cstate0 l = Ok (s, outs) ->
    In (od, pa) outs ->
    no_uncertainty (mpc_cov (mo_pose od)) /\
    no_uncertainty (mtc_cov (mo_twist od)) /\
    mtc_lin (mo_twist od) = v0 /\ mtc_ang (mo_twist od) = v0 /\ h_frame (mo_header od) = NONE /\ mo_child od = NONE.
Proof. exact (@no_uncertainty_published). Qed.
Theorem C91_uncertainty_refuted :
  exists (k : kind) (l : list increment) (s : cstate) (outs : list (modom * path)) (od : modom) (pa : path),
      (forall m : increment, In m l -> inc_ok k m) /\
      (forall (m : increment) (x : option R), In m l -> In x (in_cov m) -> x <> Some 0) /\
      combine_all k cstate0 l = Ok (s, outs) /\ In (od, pa) outs /\ no_uncertainty (mpc_cov (mo_pose od)).
Proof. exact (@uncertainty_lost_refuted). Qed.
Theorem C91_misspelt_refuted :
  exists t : option string, t <> None /\ subscribed t = None.
Proof. exact (@misspelt_type_refuted). Qed.

(* C92 *)
Theorem C92_integrated :
  forall (pim : Type) (strict : bool) (add : pim -> vec3 -> vec3 -> R -> pim) (predict : pim -> nav -> nav) (pcov : pim -> mx) 
      (imu_body : iso) (position velocity : vec3) (p0 : pim) (m0 : rimu) (l : list rimu),
    ri_time m0 <> 0%Z ->
    (forall m : rimu, In m l -> ri_time m <> 0%Z) ->
    (stalls strict (ri_time m0) l -> integrate_all pim strict add predict pcov imu_body position velocity (istate0 pim p0) (m0 :: l) = Throw) /\
    (~ stalls strict (ri_time m0) l ->
     exists (s : istate pim) (outs : list (modom * path)),
       integrate_all pim strict add predict pcov imu_body position velocity (istate0 pim p0) (m0 :: l) = Ok (s, outs) /\
       Datatypes.length outs = Datatypes.length l /\
       (forall (i : nat) (m : rimu),
        nth_error l i = Some m ->
        exists (od : modom) (pa : path),
          nth_error outs i = Some (od, pa) /\
          published pim predict pcov (initial_state imu_body position velocity (ri_ori m0)) (feed add p0 (firstn (S i) (timed (ri_time m0) l)))
            (map (fun o : modom * path => ({| h_seq := 0; h_stamp := h_stamp (mo_header (fst o)); h_frame := BODY |}, mpc_pose (mo_pose (fst o))))
               (firstn i outs)) m od pa)).
Proof. exact (@integrated). Qed.
Theorem C92_times_add_up :
  forall (t : Z) (l : list rimu) (i : nat) (m : rimu),
    nth_error l i = Some m -> total (firstn (S i) (timed t l)) = IZR (ri_time m - t) / 1000000000.
Proof. exact (@times_add_up). Qed.
Theorem C92_initial_orientation :
  forall (imu_body : iso) (position velocity : vec3) (ori : quat),
    initial_state imu_body position velocity (0, 0, 0, 0) = {| n_rot := mI; n_pos := position; n_vel := velocity |} /\
    (qunit ori -> motion imu_body -> n_rot (initial_state imu_body position velocity ori) = mmul (qmat ori) (lin imu_body)).
Proof. exact (@initial_orientation). Qed.
Theorem C92_back_refused :
  forall (pim : Type) (strict : bool) (add : pim -> vec3 -> vec3 -> R -> pim) (predict : pim -> nav -> nav) (pcov : pim -> mx) 
      (imu_body : iso) (position velocity : vec3) (p0 : pim) (m0 : rimu) (l : list rimu) (i : nat) (a b : rimu),
    strict = true ->
    (0 < ri_time m0)%Z ->
    nth_error (m0 :: l) i = Some a ->
    nth_error (m0 :: l) (S i) = Some b ->
    (ri_time b <= ri_time a)%Z -> integrate_all pim strict add predict pcov imu_body position velocity (istate0 pim p0) (m0 :: l) = Throw.
Proof. exact (@back_refused). Qed.
Theorem C92_restart_keeps :
  forall (pim : Type) (strict : bool) (add : pim -> vec3 -> vec3 -> R -> pim) (predict : pim -> nav -> nav) (pcov : pim -> mx) 
      (imu_body : iso) (position velocity : vec3) (p0 : pim) (m0 m1 mz m2 m3 : rimu),
    strict = false ->
    ri_time m0 <> 0%Z ->
    ri_time m1 <> 0%Z ->
    ri_time mz = 0%Z ->
    ri_time m2 <> 0%Z ->
    ri_time m3 <> 0%Z ->
    ri_time m0 <> ri_time m1 ->
    ri_time m2 <> ri_time m3 ->
    exists (s : istate pim) (outs : list (modom * path)) (od : modom) (pa : path),
      integrate_all pim strict add predict pcov imu_body position velocity (istate0 pim p0) [m0; m1; mz; m2; m3] = Ok (s, outs ++ [(od, pa)]) /\
      Datatypes.length outs = 2%nat /\
      mp_pos (mpc_pose (mo_pose od)) =
      n_pos
        (predict (feed add p0 (timed (ri_time m0) [m1; mz] ++ timed (ri_time m2) [m3])) (initial_state imu_body position velocity (ri_ori m2))).
Proof. exact (@restart_keeps). Qed.
Theorem C92_restart_refuted :
  exists
      (add : R -> vec3 -> vec3 -> R -> R) (predict : R -> nav -> nav) (pcov : R -> mx) (m0 m1 mz m2 m3 : rimu) (s : istate R) 
    (outs : list (modom * path)) (od : modom) (pa : path),
      integrate_all R false add predict pcov iid v0 (1, 0, 0) (istate0 R 0) [m0; m1; mz; m2; m3] = Ok (s, outs ++ [(od, pa)]) /\
      Datatypes.length outs = 2%nat /\
      mp_pos (mpc_pose (mo_pose od)) <> n_pos (predict (feed add 0 (timed (ri_time m2) [m3])) (initial_state iid v0 (1, 0, 0) (ri_ori m2))).
Proof. exact (@restart_refuted). Qed.
Theorem C92_backwards_refuted :
  exists (m0 m1 : rimu) (s : istate R) (outs : list (modom * path)),
      (ri_time m1 < ri_time m0)%Z /\
      integrate_all R false toy_add toy_predict toy_cov iid v0 (1, 0, 0) (istate0 R 0) [m0; m1] = Ok (s, outs) /\ is_pim s < 0.
Proof. exact (@backwards_refuted). Qed.

(* C93 *)
Theorem C93_tf_of_odometry :
  forall m : modom,
    tf_header (odometry_tf m) = mo_header m /\
    tf_child (odometry_tf m) = mo_child m /\ motion_of (tf_pose (odometry_tf m)) = motion_of (mpc_pose (mo_pose m)).
Proof. exact (@tf_of_odometry). Qed.
Theorem C93_imu_turned :
  forall (r : quat) (ow : bool) (nf : nat) (s : rimu),
    qunit r ->
    qunit (ri_ori s) ->
    let s' := imu_transform r ow nf s in
    qunit (ri_ori s') /\
    (forall v : vec3, mapply (qmat (ri_ori s')) v = mapply (qmat r) (mapply (qmat (ri_ori s)) v)) /\
    ri_w s' = ri_w s /\
    ri_a s' = ri_a s /\
    ri_wcov s' = ri_wcov s /\ ri_acov s' = ri_acov s /\ ri_time s' = ri_time s /\ ri_frame s' = (if ow then nf else ri_frame s).
Proof. exact (@imu_transformed). Qed.
Theorem C93_turned_covariance_iff :
  forall (r : quat) (ow : bool) (nf : nat) (s : rimu) (C : mat3),
    qunit r ->
    holds (ri_ocov s) C ->
    holds (ri_ocov (imu_transform r ow nf s)) (mmul (qmat r) C) /\
    (holds (ri_ocov (imu_transform r ow nf s)) (rotate_point_covariance C (qmat r)) <-> mmul C (mT (qmat r)) = C).
Proof. exact (@turned_covariance_iff). Qed.
Theorem C93_turned_covariance_refuted :
  exists (r : quat) (s : rimu),
      qunit r /\
      (forall i j : nat, ri_ocov s i j = ri_ocov s j i) /\
      ri_ocov (imu_transform r false NONE s) 0 1 <> ri_ocov (imu_transform r false NONE s) 1 0.
Proof. exact (@turned_covariance_refuted). Qed.
Theorem C93_frames_broadcast :
  forall (c : analysis) (m : mimu),
    qunit (mi_ori m) ->
    qunit (an_q c) ->
    exists h : mheader,
      h_stamp h = h_stamp (mi_header m) /\
      h_frame h = an_fixed c /\
      (an_apply c = false ->
       analyse c m = [{| tf_header := h; tf_child := h_frame (mi_header m); tf_pose := {| mp_pos := v0; mp_ori := mi_ori m |} |}]) /\
      (an_apply c = true ->
       exists p : mpose,
         analyse c m =
         [{| tf_header := h; tf_child := h_frame (mi_header m); tf_pose := {| mp_pos := v0; mp_ori := mi_ori m |} |};
          {| tf_header := h; tf_child := an_frame c; tf_pose := p |}] /\
         mp_pos p = an_t c /\ qmat (mp_ori p) = mmul (qmat (mi_ori m)) (qmat (an_q c))).
Proof. exact (@analysed). Qed.
Theorem C93_second_frame :
  forall (c : analysis) (m : mimu) (p : mpose),
    qunit (mi_ori m) ->
    qunit (an_q c) ->
    analyse c m =
    [{|
       tf_header := {| h_seq := 0; h_stamp := h_stamp (mi_header m); h_frame := an_fixed c |};
       tf_child := h_frame (mi_header m);
       tf_pose := {| mp_pos := v0; mp_ori := mi_ori m |}
     |}; {| tf_header := {| h_seq := 0; h_stamp := h_stamp (mi_header m); h_frame := an_fixed c |}; tf_child := an_frame c; tf_pose := p |}] ->
    motion_of p = imul (motion_of {| mp_pos := v0; mp_ori := mi_ori m |}) (to_transform (an_t c) (an_q c)) <->
    mapply (qmat (mi_ori m)) (an_t c) = an_t c.
Proof. exact (@second_frame). Qed.
Theorem C93_second_frame_refuted :
  exists (c : analysis) (m : mimu) (a : tfmsg) (p : mpose),
      qunit (mi_ori m) /\
      qunit (an_q c) /\
      analyse c m = [a; {| tf_header := tf_header a; tf_child := an_frame c; tf_pose := p |}] /\
      motion_of p <> imul (motion_of (tf_pose a)) (to_transform (an_t c) (an_q c)).
Proof. exact (@second_frame_refuted). Qed.
Theorem C93_settings_refused :
  forall t r : list R, analysis_params t r = Throw <-> (Datatypes.length t < 3)%nat \/ (Datatypes.length r < 9)%nat.
Proof. exact (@analysis_params_throw). Qed.
Theorem C93_settings_by_rows :
  forall (x y z : R) (t : list R) (a b c d e f g h i : R) (r : list R),
    proper (a, b, c, (d, e, f), (g, h, i)) ->
    exists q : quat,
      analysis_params (x :: y :: z :: t) (a :: b :: c :: d :: e :: f :: g :: h :: i :: r) = Ok (x, y, z, q) /\
      qunit q /\ qmat q = (a, b, c, (d, e, f), (g, h, i)).
Proof. exact (@analysis_params_rows). Qed.

(* C94 *)
Theorem C94_biases :
  forall (m : mbias) (b : bias) (stamp : Z) (frame : nat),
    bias_from_ros (bias_to_ros m b stamp frame) = b /\
    h_stamp (mb_header (bias_to_ros m b stamp frame)) = stamp /\ h_frame (mb_header (bias_to_ros m b stamp frame)) = frame.
Proof. exact (@bias_round_trip). Qed.
Theorem C94_arrays :
  forall (l : list rimu) (t0 : list mimu) (v0' : list rimu),
    exists (ms : list mimu) (vs : list rimu),
      imus_to_ros t0 l = Ok (t0 ++ ms) /\
      Datatypes.length ms = Datatypes.length l /\ imus_from_ros ms v0' = Ok (v0' ++ vs) /\ Forall2 imu_same vs l.
Proof. exact (@imus_round_trip). Qed.
Theorem C94_appended_refuted :
  exists (ms : list mimu) (old l : list rimu), imus_from_ros ms old = Ok l /\ Datatypes.length l <> Datatypes.length ms.
Proof. exact (@array_appended_refuted). Qed.
Theorem C94_poses :
  forall p : iso, motion p -> pose3_from_ros (pose3_to_ros p) = p.
Proof. exact (@pose3_round_trip). Qed.

Print Assumptions C91_type_subscribed.
Print Assumptions C91_motions_combined.
Print Assumptions C91_no_uncertainty.
Print Assumptions C91_uncertainty_refuted.
Print Assumptions C91_misspelt_refuted.
Print Assumptions C92_integrated.
Print Assumptions C92_times_add_up.
Print Assumptions C92_initial_orientation.
Print Assumptions C92_back_refused.
Print Assumptions C92_restart_keeps.
Print Assumptions C92_restart_refuted.
Print Assumptions C92_backwards_refuted.
Print Assumptions C93_tf_of_odometry.
Print Assumptions C93_imu_turned.
Print Assumptions C93_turned_covariance_iff.
Print Assumptions C93_turned_covariance_refuted.
Print Assumptions C93_frames_broadcast.
Print Assumptions C93_second_frame.
Print Assumptions C93_second_frame_refuted.
Print Assumptions C93_settings_refused.
Print Assumptions C93_settings_by_rows.
Print Assumptions C94_biases.
Print Assumptions C94_arrays.
Print Assumptions C94_appended_refuted.
Print Assumptions C94_poses.
