(* Cases and refutations: metrics. *)
From Coq Require Import ZArith Reals List Bool Lia Lra.
From Verif Require Import Base Mx Interp Geo CvModel EgModel MsModel MsProofs MsPose MtModel MtSpec MtProofs.
Import ListNotations.
Open Scope R_scope.

Definition pa : npose := mkNP (1, 0, 0) (Some qI).
Definition pb : npose := mkNP (1, 2, 0) (Some (0, 1, 0, 0)).
Definition pc : npose := mkNP (4, 2, 0) (Some qI).
Definition ex_events : list mevent := [EPose (pa, []); EPath [pa; pb]; EPose (pb, [Some 1; None; Some 3; Some 3])].
Example ex_metrics : exists l, get_metrics (fold_left mstep ex_events mstate0) = Ok l /\ published_as l OUTLIER_MAX (Some 3) /\ published_as l OUTLIER_IDX (Some 2) /\ published_as l INSTANT_NORM (Some 2) /\ published_as l INSTANT_ANGL (Some PI).
Proof.
  set (s := fold_left mstep ex_events mstate0). destruct (kept ex_events) as (A & B & C & D). fold s in A, B, C, D. clearbody s. cbn in A, B, C, D.
  destruct (get_metrics s) as [l| |] eqn:E.
  - exists l. split; [reflexivity|]. destruct (same_places s l E) as (_ & P1 & P2 & _ & _ & P5 & _). destruct (P5 pb pa _ _ A B) as [P6 P7].
    destruct (outlier_found s _ _ A) as [[N _]|(m & i & (L1 & L2 & L3 & L4) & O)]; [exfalso; specialize (N 0%nat 1 eq_refl); lra|].
    assert (i = 2%nat /\ m = 3) as [-> ->].
    { destruct i as [|[|[|[|i]]]]; cbn in L1; try discriminate.
      - injection L1 as <-. specialize (L3 2%nat 3 eq_refl). lra.
      - injection L1 as <-. auto.
      - injection L1 as <-. specialize (L4 2%nat 3 ltac:(lia) eq_refl). lra.
      - destruct i; discriminate. }
    rewrite O in P1, P2. cbn [fst snd] in P1, P2. split; [exact P1|]. split; [exact P2|]. unfold rel_pose in P6, P7. cbn [np_pos np_ori pa pb fst snd] in P6, P7. split.
    + assert (V : vnorm (vsub (1, 2, 0) (1, 0, 0)) = 2); [|rewrite <- V; exact P6]. unfold vnorm. vred. replace ((1 + - (1)) * (1 + - (1)) + (2 + - 0) * (2 + - 0) + (0 + - 0) * (0 + - 0)) with (2 * 2) by ring. apply sqrt_square. lra.
    + unfold qI, qdot4 in P7. replace (1 * 0 + 0 * 0 + 0 * 0 + 0 * 1) with 0 in P7 by ring. rewrite Rmin_right in P7 by lra. destruct (Rlt_dec 0 (-1)); [lra|]. rewrite acos_0 in P7. replace (2 * (PI / 2)) with PI in P7 by field. exact P7.
  - exfalso. apply raises in E; [|intros c K; rewrite C in K; discriminate]. destruct E as (l & E & L). rewrite D in E. injection E as <-. cbn in L. lia.
  - exfalso. unfold get_metrics, var_diag, consistent in E. rewrite C, D in E. discriminate.
Qed.
(* a path of one pose stops the node *)
Theorem one_pose_refuted : exists l, get_metrics (fold_left mstep l mstate0) = Throw.
Proof. exists [EPath [pa]]. apply raises; [discriminate|]. exists [pa]. split; [reflexivity|cbn; lia]. Qed.
(* the same orientation, stated by the opposite quaternion, counts as a full turn *)
Theorem opposite_refuted : exists p1 p2 q1 q2, np_ori p1 = Some q1 /\ np_ori p2 = Some q2 /\ qunit q1 /\ qunit q2 /\ angle_between q1 q2 0 /\ snd (rel_pose p1 p2) = Some (2 * PI).
Proof.
  exists pa, (mkNP v0 (Some (-1, 0, 0, 0))), qI, (-1, 0, 0, 0). split; [reflexivity|]. split; [reflexivity|]. assert (U1 : qunit qI) by (unfold qunit, qdot, qI; cbn; ring). assert (U2 : qunit (-1, 0, 0, 0)) by (unfold qunit, qdot; cbn; ring).
  assert (A0 : angle_between qI (-1, 0, 0, 0) 0) by (split; [pose proof PI_RGT_0; lra|]; rewrite trace_dot by assumption; rewrite cos_0; unfold qdot4, qI; ring).
  repeat (split; [assumption|]). destruct (relative_pose pa (mkNP v0 (Some (-1, 0, 0, 0))) qI (-1, 0, 0, 0) eq_refl eq_refl U1 U2) as (a & B & _ & C). rewrite (angle_unique _ _ _ _ B A0) in C. rewrite C. f_equal.
  destruct (Rle_dec 0 _) as [L|_]; [unfold qdot4, qI in L; lra|ring].
Qed.
(* an orientation that is not a number counts as no turn *)
Theorem nan_orientation_refuted : exists p1 p2, np_ori p1 = None /\ snd (rel_pose p1 p2) = Some 0.
Proof. exists (mkNP v0 None), pa. split; [reflexivity|]. unfold rel_pose. cbn [np_ori snd]. destruct (Rlt_dec 1 (-1)); [lra|]. rewrite acos_1. f_equal. ring. Qed.
(* the variance of the rotation is not what is published as such *)
Theorem labels_refuted : exists s l arr c, st_reg s = Some arr /\ ros_cov arr c /\ get_metrics s = Ok l /\ ~ published_as l VAR_RX (c 0%nat 0%nat).
Proof.
  set (c := fun i j : nat => Some (if Nat.ltb i 3 then 0 else 1)). destruct (cov_to_ros_ok (repeat (Some 0) 36) c eq_refl) as (arr & _ & K). set (s := mkMS None (Some arr) None None).
  destruct (get_metrics s) as [l| |] eqn:E.
  - exists s, l, arr, c. split; [reflexivity|]. split; [exact K|]. split; [exact E|]. pose proof (labels_swapped s l arr c eq_refl K E) as F. intros [_ P]. specialize (P (Some 1)). assert (I : In (VAR_RX, Some 1) l).
    { rewrite <- (firstn_skipn 6 l), F. left. reflexivity. } apply P in I. injection I. lra.
  - exfalso. apply raises in E; [destruct E as (l & E & _); discriminate|]. intros a [= <-]. apply K.
  - exfalso. unfold get_metrics, var_diag, consistent, s in E. cbn [st_reg st_path] in E. unfold at_ in E. destruct (nth_error arr 0), (nth_error arr 7), (nth_error arr 14), (nth_error arr 21), (nth_error arr 28), (nth_error arr 35); discriminate.
Qed.
(* metrics computed between the two assignments of a pose callback compare a pose with itself *)
Theorem torn_refuted : exists l p s, s = set_prev (fold_left mstep l mstate0) /\ set_curr p s = fold_left mstep (l ++ [EPose p]) mstate0 /\
  fst (instant (fold_left mstep l mstate0)) = 2 /\ fst (instant (set_curr p s)) = 3 /\ instant s = (0, Some 0).
Proof.
  exists [EPose (pa, []); EPose (pb, [])], (pc, []). eexists. split; [reflexivity|]. split; [reflexivity|]. unfold instant. cbn [fold_left mstep set_prev set_curr st_curr st_prev mstate0]. unfold rel_pose. cbn [np_pos np_ori pa pb pc fst].
  unfold vnorm, qdot4. vred. split; [|split].
  - replace ((1 + - (1)) * (1 + - (1)) + (2 + - 0) * (2 + - 0) + (0 + - 0) * (0 + - 0)) with (2 * 2) by ring. apply sqrt_square. lra.
  - replace ((4 + - (1)) * (4 + - (1)) + (2 + - (2)) * (2 + - (2)) + (0 + - 0) * (0 + - 0)) with (3 * 3) by ring. apply sqrt_square. lra.
  - replace ((1 + - (1)) * (1 + - (1)) + (2 + - (2)) * (2 + - (2)) + (0 + - 0) * (0 + - 0)) with 0 by ring. rewrite sqrt_0. replace (1 * 1 + 0 * 0 + 0 * 0 + 0 * 0) with 1 by ring. rewrite Rmin_left by lra. destruct (Rlt_dec 1 (-1)); [lra|]. rewrite acos_1. f_equal. f_equal. ring.
Qed.
