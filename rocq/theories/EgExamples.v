(* Concrete cases and refutations for poses, covariances and messages. *)
From Coq Require Import ZArith Reals Lra Lia Psatz List Bool.
From Verif Require Import Base Mx Interp Geo EgModel CvModel CvProofs EgProofs EgPose MsModel MsProofs MsPose.
Import ListNotations.
Open Scope R_scope.

(* a third of a turn about (1,1,1): x -> y -> z -> x *)
Definition qt : quat := (1/2, 1/2, 1/2, 1/2).
Definition mt : mat3 := ((0, 0, 1), (1, 0, 0), (0, 1, 0)).
Definition tt3 : iso := mkIso mt (1, 2, 3).
Lemma qt_unit : qunit qt. Proof. unfold qunit, qdot, qt. lra. Qed.
Lemma qt_mat : qmat qt = mt. Proof. unfold qmat, qt, mt. tup; lra. Qed.
Lemma mt_proper : proper mt. Proof. rewrite <- qt_mat. apply qmat_proper. apply qt_unit. Qed.
Example tt3_motion : motion tt3. Proof. exact mt_proper. Qed.
(* half turn about x: the quaternion comes from the branch for traces that are not positive *)
Definition mh : mat3 := ((1, 0, 0), (0, -1, 0), (0, 0, -1)).
Example quat_half : quat_of mh = (0, 1, 0, 0).
Proof.
  unfold quat_of, mh. destruct (Rlt_dec 0 (1 + -1 + -1)); [lra|]. destruct (Rlt_dec 1 (-1)); [lra|]. destruct (Rlt_dec 1 (-1)); [lra|].
  replace (1 - -1 - -1 + 1) with (2 * 2) by ring. rewrite sqrt_square by lra. tup; field.
Qed.
Definition ex_pose : pose := mkPose (1, 0, 0) qt (fun i j => if Nat.eqb i j then 1 + INR i else 0).
Example ex_pose_ok : pose_ok ex_pose. Proof. exact qt_unit. Qed.
(* moving by tt3 gives the position and mixes rotation into translation *)
Example apply_case : p_pos (apply_transform ex_pose tt3) = (4, 1, 2) /\ p_cov (apply_transform ex_pose tt3) 3%nat 1%nat <> p_cov ex_pose 3%nat 1%nat.
Proof.
  split; [unfold apply_transform, pose_of_iso, pose_transform, to_transform, ex_pose; cbn [p_pos p_ori imul lin tr tt3]; rewrite qt_mat; vred; unfold mt; tup; lra|].
  cbv [apply_transform pose_of_iso p_cov ex_pose change_covariance_frame change_covariance_adj mulm sum trm transform_adjoint blocks mget vget iinv lin tr tt3 mt Nat.ltb Nat.leb Nat.sub Nat.eqb m0 v0]. vred. cbn [INR]. lra.
Qed.

(* covariance check *)
Definition of_R (n : nat) (f : mx) : dmat := mkD n n (fun i j => Some (f i j)).
Lemma quad_id n x : quad n idm x = sum n (fun i => x i * x i).
Proof. unfold quad. apply sum_ext. intros i Li. f_equal. unfold mulv, idm. rewrite (sum_single n _ i Li). - rewrite Nat.eqb_refl. ring. - intros j Lj NE. destruct (Nat.eqb_spec i j); [congruence|ring]. Qed.
Lemma pd_id n : pd n idm.
Proof. intros x [k [Lk NZ]]. rewrite quad_id. apply sum_pos; [intros; nra|]. exists k. split; [exact Lk|]. nra. Qed.
Example identity_valid n : is_valid_covariance (of_R n idm) 0 = true.
Proof.
  apply valid_covariance_default. split; [reflexivity|]. split; [intros; eexists; reflexivity|]. split; [intros i j _ _; unfold num, of_R, idm; cbn; rewrite Nat.eqb_sym; reflexivity|].
  apply (pd_ext n idm); [intros i j _ _; reflexivity|apply pd_id].
Qed.
(* correlated, not diagonal *)
Definition corr : mx := fun i j => if Nat.eqb i j then 2 else 1.
Example correlated_valid : is_valid_covariance (of_R 2 corr) 0 = true.
Proof.
  apply valid_covariance_default. split; [reflexivity|]. split; [intros; eexists; reflexivity|]. split; [intros i j _ _; unfold num, of_R, corr; cbn; rewrite Nat.eqb_sym; reflexivity|].
  intros x [k [Lk NZ]]. unfold quad, mulv, num, of_R, corr. cbn [d_at sum d_rows Nat.eqb]. cbn in Lk. pose proof (Rle_0_sqr (x 0%nat + x 1%nat)) as A; pose proof (Rle_0_sqr (x 0%nat)) as B; pose proof (Rle_0_sqr (x 1%nat)) as C; destruct k as [|[|k]]; [| |lia]; pose proof (Rsqr_pos_lt _ NZ) as D; unfold Rsqr in *; nra.
Qed.
Definition indef : mx := fun i j => if Nat.eqb i j then 1 else 2.
Example indefinite_rejected : is_valid_covariance (of_R 2 indef) 0 = false.
Proof.
  apply not_true_is_false. intros V. apply valid_covariance_default in V. destruct V as (_ & _ & _ & P). specialize (P (fun i => if Nat.eqb i 0 then 1 else -1)).
  assert (NZ : nonzero 2 (fun i => if Nat.eqb i 0 then 1 else -1)) by (exists 0%nat; split; [lia|cbn; lra]). specialize (P NZ). unfold quad, mulv, num, of_R, indef in P. cbn in P. lra.
Qed.
Example asymmetric_rejected : is_valid_covariance (of_R 2 (fun i j => if Nat.eqb i j then 2 else if Nat.ltb i j then 1 else 0)) 0 = false.
Proof. apply not_true_is_false. intros V. apply valid_covariance_default in V. destruct V as (_ & _ & S & _). specialize (S 0%nat 1%nat ltac:(cbn; lia) ltac:(cbn; lia)). unfold num, of_R in S. cbn in S. lra. Qed.
Example nonfinite_rejected : is_valid_covariance (mkD 2 2 (fun i j => if Nat.eqb i j then None else Some 0)) 0 = false. Proof. reflexivity. Qed.
(* with a tolerance, a matrix that is not positive definite can pass: only the lower triangle is factorised *)
Theorem tolerance_refuted : exists m, is_valid_covariance m 3 = true /\ ~ pd 2 (num m).
Proof.
  exists (of_R 2 (fun i j => if Nat.eqb i j then 1 else if Nat.ltb i j then 3 else 0)). split.
  - apply valid_covariance_iff. split; [reflexivity|]. split; [intros; eexists; reflexivity|]. split.
    + intros x [k [Lk NZ]]. unfold quad, mulv, mirror, num, of_R. cbn in *. pose proof (Rle_0_sqr (x 0%nat)) as B; pose proof (Rle_0_sqr (x 1%nat)) as C; destruct k as [|[|k]]; [| |lia]; pose proof (Rsqr_pos_lt _ NZ) as D; unfold Rsqr in *; nra.
    + intros i j Li Lj NE. cbn in Li, Lj. destruct i as [|[|i]]; [| |lia]; (destruct j as [|[|j]]; [| |lia]); try congruence; unfold num, of_R; cbn; unfold Rabs; destruct (Rcase_abs _); lra.
  - intros P. specialize (P (fun i => if Nat.eqb i 0 then 1 else -1)). assert (NZ : nonzero 2 (fun i => if Nat.eqb i 0 then 1 else -1)) by (exists 0%nat; split; [lia|cbn; lra]). specialize (P NZ). unfold quad, mulv, num, of_R in P. cbn in P. lra.
Qed.
(* reordering *)
Definition seq2 : cmat := fun i j => Some (INR (10 * i + j)).
Example reorder_case : exists d, reorder true (cov6 seq2) 3 = Ok d /\ d_at d 0%nat 0%nat = Some (INR 33) /\ d_at d 0%nat 3%nat = Some (INR 30) /\ d_at d 4%nat 5%nat = Some (INR 12).
Proof. eexists. split; [reflexivity|]. repeat split. Qed.
Example reorder_uneven : exists d, reorder true (mkD 3 3 seq2) 1 = Ok d /\ d_at d 0%nat 0%nat = Some (INR 11) /\ d_at d 2%nat 0%nat = Some (INR 1) /\ d_at d 2%nat 2%nat = Some (INR 0).
Proof. eexists. split; [reflexivity|]. repeat split. Qed.
Theorem reorder_dynamic_refuted : exists m, is_valid_covariance m 0 = true /\ reorder false m 3 = UB.
Proof. exists (of_R 6 idm). split; [apply identity_valid|]. apply reorder_dynamic_ub; [reflexivity|cbn; lia]. Qed.

(* messages *)
Definition blank : mposec := mkMPC (mkMP v0 qI) (repeat (Some 0) 36).
Example posec_case : exists msg, posec_to_ros blank (mkRP (1, 2, 3) qt seq2) = Ok msg /\ nth_error (mpc_cov msg) 0 = Some (Some (INR 33)) /\ nth_error (mpc_cov msg) 6 = Some (Some (INR 43)) /\ nth_error (mpc_cov msg) 35 = Some (Some (INR 22)).
Proof. eexists. split; [reflexivity|]. repeat split. Qed.
Definition fresh : multi nat := mkMulti [] 0 [].
Definition m23 : nat -> nat -> nat := fun i j => (10 * i + j)%nat.
Example multi_case : multi_to_ros 0%nat 2 3 fresh m23 = Ok (mkMulti [(2%nat, 6%Z); (3%nat, 3%Z)] 0 [0; 1; 2; 10; 11; 12]%nat). Proof. reflexivity. Qed.
Example small_case : small 2 3. Proof. unfold small. cbn. lia. Qed.
(* the same message object used for a second matrix *)
Theorem multi_reuse_refuted : exists msg1 msg2, multi_to_ros 0%nat 2 3 fresh m23 = Ok msg1 /\ multi_to_ros 0%nat 2 3 msg1 m23 = Ok msg2 /\ multi_from_ros 2 3 msg2 (fun _ _ => 0%nat) = Throw.
Proof. eexists. eexists. split; [reflexivity|]. split; reflexivity. Qed.
(* a message that promises more than it holds is read past the end *)
Theorem multi_short_refuted : exists msg, multi_from_ros 2 3 msg (fun _ _ => 0%nat) = UB /\ ma_dims msg = [(2%nat, 6%Z); (3%nat, 3%Z)].
Proof. exists (mkMulti [(2%nat, 6%Z); (3%nat, 3%Z)] 0 [0; 1; 2; 3; 4]%nat). split; reflexivity. Qed.
Example stat_case : stat_to_ros 0%nat 2 2 (mkStat 7 [1; 2; 3]%nat) m23 = Ok (mkStat 2 [0; 1; 10; 11]%nat). Proof. reflexivity. Qed.

(* skew *)
Theorem from_skew_refuted : exists m v, from_skew_symmetric m = Ok v /\ mT m <> mopp m.
Proof.
  exists ((0, 1, 1), (1, -1, 1), (1, 1, 0)), (1, 1, 1). split.
  - unfold from_skew_symmetric. assert (E : Rmax (Rmax 0 (-1)) 0 = 0) by (rewrite (Rmax_left 0 (-1)) by lra; apply Rmax_left; lra). rewrite E. destruct (Rlt_dec 0 0); [lra|reflexivity].
  - unfold mT, mopp, vopp. intros [=]; lra.
Qed.
(* polar: right on the unit circle, wrong elsewhere, not even a number close to the axis *)
Example polar_case : exists p, cartesian_to_polar (3/5) (4/5) 2 = Ok p /\ polar_of (3/5) (4/5) 2 p.
Proof.
  destruct (cartesian_to_polar (3/5) (4/5) 2) as [p| |] eqn:E.
  - exists p. split; [reflexivity|]. apply (polar_right_iff _ _ _ _ E). left. lra.
  - apply (proj1 (polar_outcomes _ _ _)) in E. lra.
  - apply (proj2 (polar_outcomes _ _ _)) in E. rewrite Rabs_right in E by lra. lra.
Qed.
Theorem polar_refuted : (exists p, cartesian_to_polar 1 1 0 = Ok p /\ ~ polar_of 1 1 0 p) /\ cartesian_to_polar (1/2) 0 0 = UB.
Proof.
  split.
  - destruct (cartesian_to_polar 1 1 0) as [p| |] eqn:E.
    + exists p. split; [reflexivity|]. intros H. apply (polar_right_iff _ _ _ _ E) in H. lra.
    + apply (proj1 (polar_outcomes _ _ _)) in E. lra.
    + apply (proj2 (polar_outcomes _ _ _)) in E. rewrite Rabs_right in E by lra. lra.
  - apply (proj2 (polar_outcomes _ _ _)). rewrite Rabs_right by lra. lra.
Qed.
(* IMU: the orientation covariance is turned the other way *)
Definition ex_imu : imu := mkImu qI (1, 0, 0) (0, 0, 1) ((1, 0, 0), (0, 0, 0), (0, 0, 0)) ((1, 0, 0), (0, 0, 0), (0, 0, 0)) mI.
Theorem imu_orientation_covariance_refuted : exists s q, qunit (i_ori s) /\ qunit q /\ i_ocov s = i_wcov s /\ let s' := change_frame s q (qconj q) in i_ocov s' <> i_wcov s' /\
  mmul (mmul (qmat (i_ori s')) (i_ocov s')) (mT (qmat (i_ori s'))) <> mmul (mmul (qmat (i_ori s)) (i_ocov s)) (mT (qmat (i_ori s))).
Proof.
  exists ex_imu, qt. split; [apply qunit_I|]. split; [apply qt_unit|]. split; [reflexivity|]. intros s'. unfold s', change_frame. cbn [i_ori i_w i_a i_ocov i_wcov i_acov ex_imu].
  rewrite qmat_mul by (apply qunit_I || apply qt_unit). rewrite qmat_conj, qt_mat, qmat_I. unfold mt. split.
  - vred. intros [=]. lra.
  - vred. intros [=]. lra.
Qed.
(* composing with correlated steps *)
Example joint_case : psd 12 (joint idm idm idm) /\ symmetric 12 (joint idm idm idm).
Proof.
  split.
  - intros x. assert (E : quad 12 (joint idm idm idm) x = sum 6 (fun i => Rsqr (x i + x (6 + i)%nat))).
    { unfold quad, mulv. cbn [sum]. unfold joint, idm. cbn [Nat.ltb Nat.leb Nat.eqb Nat.sub Nat.add]. unfold Rsqr. ring. }
    rewrite E. apply sum_nonneg. intros. apply Rle_0_sqr.
  - intros i j Li Lj. unfold joint, idm. destruct (Nat.ltb_spec i 6), (Nat.ltb_spec j 6); rewrite Nat.eqb_sym; reflexivity || (f_equal; try reflexivity).
Qed.
(* a registration result with a proper covariance *)
Example publish_case : motion tt3 /\ symmetric 6 (num (cov6 (fun i j => Some (idm i j)))) /\ pd 6 (num (cov6 (fun i j => Some (idm i j)))).
Proof. split; [exact tt3_motion|]. split; [intros i j _ _; unfold num, cov6, idm; cbn; rewrite Nat.eqb_sym; reflexivity|]. apply (pd_ext 6 idm); [intros i j _ _; reflexivity|apply pd_id]. Qed.
