(* Pose, twist, odometry, IMU and registration messages. *)
From Coq Require Import ZArith Reals List Bool Lia Lra.
From Verif Require Import Base Mx Interp Geo EgModel CvModel CvProofs EgProofs EgPose MsModel MsProofs.
Import ListNotations.

(* ROS order: translation first.  Entry (i, j) of a value's covariance (rotation first) sits at row i+3 mod 6, column j+3 mod 6. *)
Definition ros_cov (arr : list (option R)) (c : cmat) : Prop :=
  length arr = 36%nat /\ forall i j, (i < 3)%nat -> (j < 3)%nat ->
    nth_error arr (6 * i + j) = Some (c (3 + i)%nat (3 + j)%nat) /\ nth_error arr (6 * i + (3 + j)) = Some (c (3 + i)%nat j) /\
    nth_error arr (6 * (3 + i) + j) = Some (c i (3 + j)%nat) /\ nth_error arr (6 * (3 + i) + (3 + j)) = Some (c i j).
Definition rot6 (i : nat) : nat := ((i + 3) mod 6)%nat.
Lemma rot6_lt i : (rot6 i < 6)%nat. Proof. unfold rot6. apply Nat.mod_upper_bound. lia. Qed.
Lemma rot6_rot6 i : (i < 6)%nat -> rot6 (rot6 i) = i. Proof. intros L. do 6 (destruct i as [|i]; [reflexivity|]). lia. Qed.
Lemma reorder6 c : exists d, reorder true (cov6 c) 3 = Ok d /\ forall i j, (i < 6)%nat -> (j < 6)%nat -> d_at d i j = c (rot6 i) (rot6 j).
Proof.
  destruct (reorder_entries (cov6 c) 3 eq_refl) as (d & E & _ & _ & H); [lia|cbn; lia|]. exists d. split; [exact E|]. intros i j Li Lj. apply H; assumption.
Qed.
Lemma ros_cov_iff arr c : ros_cov arr c <-> holds 6 6 arr (fun i j => c (rot6 i) (rot6 j)).
Proof.
  split.
  - intros [L H]. split; [exact L|]. intros r k Hr Hk. destruct (le_lt_dec 3 r) as [A|A], (le_lt_dec 3 k) as [B|B].
    + destruct (H (r - 3)%nat (k - 3)%nat ltac:(lia) ltac:(lia)) as (_ & _ & _ & E). replace (3 + (r - 3))%nat with r in E by lia. replace (3 + (k - 3))%nat with k in E by lia. rewrite E. f_equal.
      do 6 (try destruct r as [|r]); try lia; do 6 (try destruct k as [|k]); try lia; reflexivity.
    + destruct (H (r - 3)%nat k ltac:(lia) ltac:(lia)) as (_ & _ & E & _). replace (3 + (r - 3))%nat with r in E by lia. rewrite E. f_equal.
      do 6 (try destruct r as [|r]); try lia; do 6 (try destruct k as [|k]); try lia; reflexivity.
    + destruct (H r (k - 3)%nat ltac:(lia) ltac:(lia)) as (_ & E & _ & _). replace (3 + (k - 3))%nat with k in E by lia. rewrite E. f_equal.
      do 6 (try destruct r as [|r]); try lia; do 6 (try destruct k as [|k]); try lia; reflexivity.
    + destruct (H r k ltac:(lia) ltac:(lia)) as (E & _ & _ & _). rewrite E. f_equal. do 6 (try destruct r as [|r]); try lia; do 6 (try destruct k as [|k]); try lia; reflexivity.
  - intros [L H]. split; [exact L|]. intros i j Li Lj. repeat split; rewrite H by lia; f_equal; (do 3 (try destruct i as [|i]); try lia); (do 3 (try destruct j as [|j]); try lia); reflexivity.
Qed.
Lemma holds_same {X} rows cols arr (m m' : nat -> nat -> X) : holds rows cols arr m -> same rows cols m' m -> holds rows cols arr m'.
Proof. intros [L H] E. split; [exact L|]. intros r c Hr Hc. rewrite H by assumption. rewrite E by assumption. reflexivity. Qed.
Lemma cov_to_ros_ok arr c : length arr = 36%nat -> exists arr', cov_to_ros arr c = Ok arr' /\ ros_cov arr' c.
Proof.
  intros L. destruct (reorder6 c) as (d & E & H). unfold cov_to_ros. rewrite E. cbn [rbind]. destruct (store_rm 6 6 (d_at d) arr L) as (a & S & K). exists a. split; [exact S|]. apply ros_cov_iff. apply (holds_same _ _ _ _ _ K). intros i j Li Lj. symmetry. apply H; assumption.
Qed.
Lemma cov_from_ros_ok arr c0 : length arr = 36%nat -> exists c, cov_from_ros arr c0 = Ok c /\ ros_cov arr c.
Proof.
  intros L. destruct (load_holds 6 6 arr c0 L) as (m & E & H). unfold cov_from_ros, array_from_ros. rewrite E. cbn [rbind]. destruct (reorder6 m) as (d & Ed & Hd). rewrite Ed. cbn [rbind]. exists (d_at d). split; [reflexivity|].
  apply ros_cov_iff. apply (holds_same _ _ _ _ _ H). intros i j Li Lj. rewrite Hd by apply rot6_lt. rewrite !rot6_rot6 by assumption. reflexivity.
Qed.
Lemma ros_cov_same arr c c' : ros_cov arr c -> ros_cov arr c' -> same 6 6 c c'.
Proof.
  intros H K. apply ros_cov_iff in H, K. destruct H as [_ H], K as [_ K]. intros i j Li Lj. specialize (H (rot6 i) (rot6 j) (rot6_lt i) (rot6_lt j)). specialize (K (rot6 i) (rot6 j) (rot6_lt i) (rot6_lt j)). rewrite H in K. injection K. rewrite !rot6_rot6 by assumption. auto.
Qed.
Lemma ros_cov_array arr arr' c : ros_cov arr c -> ros_cov arr' c -> arr = arr'.
Proof. intros H K. apply ros_cov_iff in H, K. apply (holds_unique 6 6 _ _ _ _ H K). intros i j _ _. reflexivity. Qed.
Lemma ros_cov_ext arr c c' : ros_cov arr c -> same 6 6 c c' -> ros_cov arr c'.
Proof. intros [L H] E. split; [exact L|]. intros i j Li Lj. destruct (H i j Li Lj) as (A & B & C & D). rewrite <- !E by lia. tauto. Qed.

Definition rpose_eq (p q : rpose) : Prop := rp_pos p = rp_pos q /\ rp_ori p = rp_ori q /\ same 6 6 (rp_cov p) (rp_cov q).
Definition rtwist_eq (p q : rtwist) : Prop := rt_lin p = rt_lin q /\ rt_ang p = rt_ang q /\ same 6 6 (rt_cov p) (rt_cov q).
Theorem posec_round_trip p p0 msg : length (mpc_cov msg) = 36%nat ->
  exists msg' p', posec_to_ros msg p = Ok msg' /\ mp_pos (mpc_pose msg') = rp_pos p /\ mp_ori (mpc_pose msg') = rp_ori p /\ ros_cov (mpc_cov msg') (rp_cov p) /\ posec_from_ros msg' p0 = Ok p' /\ rpose_eq p' p.
Proof.
  intros L. destruct (cov_to_ros_ok (mpc_cov msg) (rp_cov p) L) as (a & E & H). destruct (cov_from_ros_ok a (rp_cov p0) (proj1 H)) as (c & E' & H').
  unfold posec_to_ros. rewrite E. cbn [rbind]. eexists. exists (mkRP (rp_pos p) (rp_ori p) c). split; [reflexivity|]. cbn. split; [reflexivity|]. split; [reflexivity|]. split; [exact H|].
  unfold posec_from_ros. cbn. rewrite E'. cbn. split; [reflexivity|]. split; [reflexivity|]. split; [reflexivity|]. exact (ros_cov_same _ _ _ H' H).
Qed.
Theorem posec_back_trip msg msg0 p0 : length (mpc_cov msg) = 36%nat -> length (mpc_cov msg0) = 36%nat -> exists p, posec_from_ros msg p0 = Ok p /\ posec_to_ros msg0 p = Ok msg.
Proof.
  intros L L0. destruct (cov_from_ros_ok (mpc_cov msg) (rp_cov p0) L) as (c & E & H). exists (mkRP (mp_pos (mpc_pose msg)) (mp_ori (mpc_pose msg)) c). split; [unfold posec_from_ros; cbn [rp_pos rp_ori rp_cov mpc_pose mpc_cov mp_pos mp_ori pose_from_ros pose_to_ros rbind]; rewrite E; reflexivity|].
  destruct (cov_to_ros_ok (mpc_cov msg0) c L0) as (a & E' & H'). unfold posec_to_ros. cbn [rp_pos rp_ori rp_cov mpc_pose mpc_cov mp_pos mp_ori pose_from_ros pose_to_ros rbind]. rewrite E'. cbn [rp_pos rp_ori rp_cov mpc_pose mpc_cov mp_pos mp_ori pose_from_ros pose_to_ros rbind]. rewrite (ros_cov_array _ _ _ H' H). destruct msg as [[q r] cc]. reflexivity.
Qed.
Theorem twistc_round_trip t t0 msg : length (mtc_cov msg) = 36%nat ->
  exists msg' t', twistc_to_ros msg t = Ok msg' /\ mtc_lin msg' = rt_lin t /\ mtc_ang msg' = rt_ang t /\ ros_cov (mtc_cov msg') (rt_cov t) /\ twistc_from_ros msg' t0 = Ok t' /\ rtwist_eq t' t.
Proof.
  intros L. destruct (cov_to_ros_ok (mtc_cov msg) (rt_cov t) L) as (a & E & H). destruct (cov_from_ros_ok a (rt_cov t0) (proj1 H)) as (c & E' & H').
  unfold twistc_to_ros. rewrite E. cbn [rbind]. eexists. exists (mkRT (rt_lin t) (rt_ang t) c). split; [reflexivity|]. cbn. split; [reflexivity|]. split; [reflexivity|]. split; [exact H|].
  unfold twistc_from_ros. cbn. rewrite E'. cbn. split; [reflexivity|]. split; [reflexivity|]. split; [reflexivity|]. exact (ros_cov_same _ _ _ H' H).
Qed.
Theorem odom_round_trip o o0 msg : length (mpc_cov (mo_pose msg)) = 36%nat -> length (mtc_cov (mo_twist msg)) = 36%nat ->
  exists msg' o', odom_to_ros msg o = Ok msg' /\ h_stamp (mo_header msg') = ro_time o /\ h_frame (mo_header msg') = ro_frame o /\ mo_child msg' = ro_child o /\ odom_from_ros msg' o0 = Ok o' /\
  ro_time o' = ro_time o /\ ro_frame o' = ro_frame o /\ ro_child o' = ro_child o /\ rpose_eq (ro_pose o') (ro_pose o) /\ rtwist_eq (ro_twist o') (ro_twist o).
Proof.
  intros L1 L2. destruct (posec_round_trip (ro_pose o) (ro_pose o0) (mo_pose msg) L1) as (mp & p' & A1 & _ & _ & _ & A2 & A3). destruct (twistc_round_trip (ro_twist o) (ro_twist o0) (mo_twist msg) L2) as (mt & t' & B1 & _ & _ & _ & B2 & B3).
  unfold odom_to_ros. rewrite A1. cbn [rbind]. rewrite B1. cbn [rbind]. eexists. exists (mkRO (ro_time o) (ro_frame o) (ro_child o) p' t'). split; [reflexivity|]. cbn. split; [reflexivity|]. split; [reflexivity|]. split; [reflexivity|].
  unfold odom_from_ros. cbn. rewrite A2. cbn [rbind]. rewrite B2. cbn [rbind]. split; [reflexivity|]. split; [reflexivity|]. split; [reflexivity|]. split; [reflexivity|]. tauto.
Qed.
Theorem imu_round_trip s s0 msg : length (mi_ocov msg) = 9%nat -> length (mi_wcov msg) = 9%nat -> length (mi_acov msg) = 9%nat ->
  exists msg' s', imu_to_ros msg s = Ok msg' /\ holds 3 3 (mi_ocov msg') (ri_ocov s) /\ holds 3 3 (mi_wcov msg') (ri_wcov s) /\ holds 3 3 (mi_acov msg') (ri_acov s) /\ mi_w msg' = ri_w s /\ mi_a msg' = ri_a s /\ mi_ori msg' = ri_ori s /\
  h_stamp (mi_header msg') = ri_time s /\ h_frame (mi_header msg') = ri_frame s /\ imu_from_ros msg' s0 = Ok s' /\
  ri_time s' = ri_time s /\ ri_frame s' = ri_frame s /\ ri_ori s' = ri_ori s /\ ri_w s' = ri_w s /\ ri_a s' = ri_a s /\ same 3 3 (ri_ocov s') (ri_ocov s) /\ same 3 3 (ri_wcov s') (ri_wcov s) /\ same 3 3 (ri_acov s') (ri_acov s).
Proof.
  intros L1 L2 L3. destruct (array_round_trip 3 3 (ri_ocov s) (ri_ocov s0) _ L1) as (a & m & A1 & A2 & A3 & A4). destruct (array_round_trip 3 3 (ri_wcov s) (ri_wcov s0) _ L2) as (b & n & B1 & B2 & B3 & B4).
  destruct (array_round_trip 3 3 (ri_acov s) (ri_acov s0) _ L3) as (c & k & C1 & C2 & C3 & C4). unfold imu_to_ros. rewrite A1. cbn [rbind]. rewrite B1. cbn [rbind]. rewrite C1. cbn [rbind].
  eexists. exists (mkRI (ri_time s) (ri_frame s) (ri_ori s) (ri_w s) (ri_a s) m n k). split; [reflexivity|]. cbn [mi_header mi_ori mi_w mi_a mi_ocov mi_wcov mi_acov h_stamp h_frame].
  unfold imu_from_ros. cbn [mi_header mi_ori mi_w mi_a mi_ocov mi_wcov mi_acov h_stamp h_frame]. rewrite A3. cbn [rbind]. rewrite B3. cbn [rbind]. rewrite C3. cbn [rbind].
  repeat (split; [first [assumption | reflexivity]|]). cbn. exact C4.
Qed.
(* transforms through a quaternion *)
Theorem iso_round_trip t : motion t -> iso_from_ros (iso_to_ros t) = t.
Proof. intros M. destruct (quat_of_spec (lin t) M) as [E _]. unfold iso_from_ros, iso_to_ros, to_transform. cbn. rewrite E. destruct t. reflexivity. Qed.
Theorem iso_back_trip msg : qunit (mp_ori msg) -> mp_pos (iso_to_ros (iso_from_ros msg)) = mp_pos msg /\ qmat (mp_ori (iso_to_ros (iso_from_ros msg))) = qmat (mp_ori msg).
Proof. intros U. split; [reflexivity|]. cbn. apply quat_of_spec. apply qmat_proper. exact U. Qed.
Theorem mat4_round_trip (m : mx) : proper (block3 m 0 0) -> m 3%nat 0%nat = 0%R -> m 3%nat 1%nat = 0%R -> m 3%nat 2%nat = 0%R -> m 3%nat 3%nat = 1%R -> eqm 4 4 (mat4_from_ros (mat4_to_ros m)) m.
Proof.
  intros P A B C D. destruct (quat_of_spec _ P) as [E _]. intros i j Li Lj. unfold mat4_from_ros, mat4_to_ros. cbn [mp_pos mp_ori]. rewrite E.
  do 4 (try destruct i as [|i]); try lia; do 4 (try destruct j as [|j]); try lia; cbn; congruence.
Qed.

(* frame change keeps validity, both ways *)
Lemma symmetric_frame c t : motion t -> symmetric 6 (change_covariance_frame c t) -> symmetric 6 c.
Proof.
  intros M S. apply (symmetric_ext 6 (change_covariance_frame (change_covariance_frame c t) (iinv t))); [|apply change_keeps; exact S].
  eapply eqm_trans; [apply change_mul; apply motion_inv; exact M|]. rewrite imul_inv_l by (apply motion_rigid; exact M). apply change_id.
Qed.
Lemma pd_frame c t : motion t -> pd 6 (change_covariance_frame c t) -> pd 6 c.
Proof.
  intros M S. apply (pd_ext 6 (change_covariance_frame (change_covariance_frame c t) (iinv t))); [|apply (proj2 (proj2 (change_keeps _ _))); [apply motion_inv; exact M|exact S]].
  eapply eqm_trans; [apply change_mul; apply motion_inv; exact M|]. rewrite imul_inv_l by (apply motion_rigid; exact M). apply change_id.
Qed.
Lemma valid_same c c' : same 6 6 c c' -> is_valid_covariance (cov6 c) 0 = is_valid_covariance (cov6 c') 0.
Proof.
  assert (Gen : forall c c', same 6 6 c c' -> is_valid_covariance (cov6 c) 0 = true -> is_valid_covariance (cov6 c') 0 = true).
  { clear. intros c c' E. rewrite !valid_covariance_default. cbn [d_rows d_cols cov6]. intros (_ & F & S & P). assert (Q : eqm 6 6 (num (cov6 c)) (num (cov6 c'))) by (intros i j Li Lj; unfold num; cbn [d_at cov6]; rewrite E by assumption; reflexivity).
    split; [reflexivity|]. split; [intros i j Li Lj; cbn [d_at] in *; rewrite <- E by assumption; apply F; assumption|]. split; [exact (symmetric_ext _ _ _ Q S)|exact (pd_ext _ _ _ Q P)]. }
  intros E. destruct (is_valid_covariance (cov6 c) 0) eqn:V; destruct (is_valid_covariance (cov6 c') 0) eqn:V'; try reflexivity.
  - rewrite (Gen c c' E V) in V'. discriminate.
  - rewrite (Gen c' c ltac:(intros i j Li Lj; symmetry; apply E; assumption) V') in V. discriminate.
Qed.
Lemma valid_body lidar c : motion lidar -> is_valid_covariance (cov6 (body_covariance lidar c)) 0 = is_valid_covariance (cov6 c) 0.
Proof.
  intros M. unfold body_covariance. destruct (all_finite (cov6 c)) eqn:F; [|reflexivity]. pose proof (proj1 (all_finite_iff (cov6 c)) F) as FF.
  set (b := fun i j => Some (change_covariance_adj (num (cov6 c)) (transform_adjoint lidar) i j)).
  assert (Q : eqm 6 6 (num (cov6 b)) (change_covariance_frame (num (cov6 c)) lidar)) by (intros i j _ _; reflexivity).
  assert (K : is_valid_covariance (cov6 b) 0 = true <-> is_valid_covariance (cov6 c) 0 = true).
  { rewrite !valid_covariance_default. cbn [d_rows d_cols cov6]. split; intros (_ & _ & S & P).
    - split; [reflexivity|]. split; [exact FF|]. split; [apply (symmetric_frame _ lidar M); exact (symmetric_ext _ _ _ Q S)|apply (pd_frame _ lidar M); exact (pd_ext _ _ _ Q P)].
    - split; [reflexivity|]. split; [intros i j _ _; eexists; reflexivity|]. destruct (change_keeps (num (cov6 c)) lidar) as (K1 & _ & K3). split; [exact (symmetric_ext _ _ _ (eqm_sym _ _ _ _ Q) (K1 S))|exact (pd_ext _ _ _ (eqm_sym _ _ _ _ Q) (K3 M P))]. }
  destruct (is_valid_covariance (cov6 b) 0), (is_valid_covariance (cov6 c) 0); try reflexivity; [symmetry; apply K; reflexivity|apply K; reflexivity].
Qed.

(* The registration message: the receiver gets the motion of the body, stamped, with the covariance moved to the body frame
   (unchanged when not finite), valid exactly when the estimate was. *)
Theorem publish_refined lidar body transform cov stamp p0 : motion lidar -> motion transform ->
  exists msg p, publish_refined_transform lidar body transform cov stamp = Ok msg /\ h_frame (ms_header msg) = body /\ pcs_from_ros msg p0 = Ok (stamp, p) /\
  to_transform (rp_pos p) (rp_ori p) = imul (imul lidar transform) (iinv lidar) /\ qunit (rp_ori p) /\
  change_relative_transform_frame (to_transform (rp_pos p) (rp_ori p)) (iinv lidar) = transform /\
  (all_finite (cov6 cov) = true -> forall i j, (i < 6)%nat -> (j < 6)%nat -> rp_cov p i j = Some (change_covariance_frame (num (cov6 cov)) lidar i j)) /\
  (all_finite (cov6 cov) = false -> same 6 6 (rp_cov p) cov) /\
  is_valid_covariance (cov6 (rp_cov p)) 0 = is_valid_covariance (cov6 cov) 0.
Proof.
  intros ML MT. destruct (reorder6 (body_covariance lidar cov)) as (d & E & H). destruct (store_rm 6 6 (d_at d) (repeat (Some 0%R) 36) (repeat_length _ _)) as (a & S & K).
  assert (RC : ros_cov a (body_covariance lidar cov)) by (apply ros_cov_iff; apply (holds_same _ _ _ _ _ K); intros i j Li Lj; symmetry; apply H; assumption).
  destruct (cov_from_ros_ok a (rp_cov p0) (proj1 RC)) as (c & E' & H'). pose proof (ros_cov_same _ _ _ H' RC) as SC.
  set (tb := change_relative_transform_frame transform lidar). assert (MB : motion tb) by (apply motion_mul; [apply motion_mul; assumption|apply motion_inv; exact ML]).
  destruct (quat_of_spec (lin tb) MB) as [QE QU].
  assert (TE : to_transform (tr tb) (quat_of (lin tb)) = tb) by (unfold to_transform; rewrite QE; destruct tb; reflexivity).
  unfold publish_refined_transform. fold tb. rewrite E. cbn [rbind]. unfold array_to_ros. rewrite S. cbn [rbind]. eexists. exists (mkRP (tr tb) (quat_of (lin tb)) c). split; [reflexivity|]. split; [reflexivity|].
  split. { unfold pcs_from_ros, posec_from_ros. cbn [ms_pose mpc_cov mpc_pose pose_from_ros rp_cov]. rewrite E'. reflexivity. }
  cbn [rp_pos rp_ori rp_cov]. rewrite TE. split; [reflexivity|]. split; [exact QU|].
  split. { apply (change_relative_laws transform transform lidar lidar); apply motion_rigid; exact ML. }
  split. { intros F i j Li Lj. rewrite SC by assumption. unfold body_covariance. rewrite F. reflexivity. }
  split. { intros F i j Li Lj. rewrite SC by assumption. unfold body_covariance. rewrite F. reflexivity. }
  rewrite (valid_same _ _ SC). apply valid_body. exact ML.
Qed.
