(* Cases and refutations: navigation and IMU tools. *)
From Coq Require Import ZArith Reals List Bool Lia Lra String.
From Verif Require Import Base Mx Interp Geo EgModel CvModel CvProofs EgProofs EgPose EgExamples MsModel MsProofs MsPose NvModel NvSpec NvProofs.
Import ListNotations.
Open Scope R_scope.

(* two increments, each one metre ahead and a third of a turn *)
Definition inc (t : Z) : increment := mkInc (mkH 0 t 5) (mkMP (1, 0, 0) qt) (repeat (Some 1) 36).
Example ex_inc_ok : forall m, In m [inc 3; inc 8] -> inc_ok KPoseCov m.
Proof. intros m [<-|[<-|[]]]; (split; [apply qt_unit|reflexivity]). Qed.
Example ex_combined : one_after_another (map inc_motion (firstn 2 [inc 3; inc 8])) = mkIso (mmul mt mt) (1, 1, 0).
Proof. unfold one_after_another, inc_motion, motion_of, to_transform, inc. cbn [firstn map fold_left in_pose mp_pos mp_ori]. rewrite !qt_mat. unfold imul, iid. cbn [lin tr]. rewrite mmul_I_l. f_equal. unfold mt. vred. tup; ring. Qed.
(* the uncertainty of the increments is lost *)
Theorem uncertainty_lost_refuted : exists k l s outs od pa, (forall m, In m l -> inc_ok k m) /\ (forall m x, In m l -> In x (in_cov m) -> x <> Some 0) /\ combine_all k cstate0 l = Ok (s, outs) /\ In (od, pa) outs /\ no_uncertainty (mpc_cov (mo_pose od)).
Proof.
  destruct (combined KPoseCov [inc 3; inc 8] ex_inc_ok) as (s & outs & A & B & C). destruct (C 1%nat (inc 8) eq_refl) as (od & pa & D & _).
  exists KPoseCov, [inc 3; inc 8], s, outs, od, pa. split; [exact ex_inc_ok|]. split.
  - intros m x [<-|[<-|[]]] X; cbn [in_cov inc] in X; apply repeat_spec in X; subst; intros [= E]; lra.
  - split; [exact A|]. apply nth_error_In in D. split; [exact D|]. apply (no_uncertainty_published _ _ _ _ _ _ ex_inc_ok A D).
Qed.
(* a misspelt type is accepted and nothing is subscribed to *)
Theorem misspelt_type_refuted : exists t, t <> None /\ subscribed t = None.
Proof. exists (Some "transformStamped"%string). split; [discriminate|reflexivity]. Qed.
Example ex_types : subscribed None = Some KTransform /\ subscribed (Some "PoseStamped"%string) = Some KPose. Proof. split; reflexivity. Qed.

(* an integrator that adds up time; the velocity of the state does not change *)
Definition toy_add (p : R) (a w : vec3) (dt : R) : R := p + dt.
Definition toy_predict (p : R) (x : nav) : nav := mkNav (n_rot x) (vadd (n_pos x) (vscale p (n_vel x))) (n_vel x).
Definition toy_cov (p : R) : mx := fun i j => if Nat.eqb i j then p else 0.
Definition msg (t : Z) : rimu := mkRI t BODY qI (0, 0, 1) (0, 0, 9) (fun _ _ => Some 0) (fun _ _ => Some 0) (fun _ _ => Some 0).
Definition sec : Z := 1000000000.
Example ex_no_repeats : ~ stalls true (ri_time (msg sec)) [msg (2 * sec); msg (4 * sec)]. Proof. cbn. unfold sec. lia. Qed.
Example ex_repeats : stalls false (ri_time (msg sec)) [msg (2 * sec); msg (2 * sec)]. Proof. cbn. auto. Qed.
Example ex_timed : timed (ri_time (msg sec)) [msg (2 * sec); msg (4 * sec)] = [((0, 0, 9), (0, 0, 1), 1); ((0, 0, 9), (0, 0, 1), 2)].
Proof. unfold sec. cbn [timed msg ri_time ri_a ri_w]. change (2 * 1000000000 - 1000000000)%Z with 1000000000%Z. change (4 * 1000000000 - 2 * 1000000000)%Z with 2000000000%Z. do 3 f_equal; try lra. Qed.
Example ex_integrated : exists s outs od pa, integrate_all R true toy_add toy_predict toy_cov iid v0 (1, 0, 0) (istate0 R 0) [msg sec; msg (2 * sec); msg (4 * sec)] = Ok (s, outs) /\ nth_error outs 1 = Some (od, pa) /\ mp_pos (mpc_pose (mo_pose od)) = (3, 0, 0).
Proof.
  destruct (integrated R true toy_add toy_predict toy_cov iid v0 (1, 0, 0) 0 (msg sec) [msg (2 * sec); msg (4 * sec)]) as [_ B]; [unfold sec; cbn; lia|intros m [<-|[<-|[]]]; unfold sec; cbn; lia|].
  destruct (B ex_no_repeats) as (s & outs & C1 & C2 & C3). destruct (C3 1%nat _ eq_refl) as (od & pa & D & E). exists s, outs, od, pa. split; [exact C1|]. split; [exact D|]. destruct E as [-> _].
  rewrite ex_timed. unfold toy_predict, toy_add, feed, initial_state. cbn [n_pos n_vel firstn fold_left]. vred. tup; lra.
Qed.
(* the state is set anew, but what was measured before is kept *)
Theorem restart_refuted : exists (add : R -> vec3 -> vec3 -> R -> R) predict pcov m0 m1 mz m2 m3 s outs od pa,
  integrate_all R false add predict pcov iid v0 (1, 0, 0) (istate0 R 0) [m0; m1; mz; m2; m3] = Ok (s, outs ++ [(od, pa)]) /\ length outs = 2%nat /\
  mp_pos (mpc_pose (mo_pose od)) <> n_pos (predict (feed add 0 (timed (ri_time m2) [m3])) (initial_state iid v0 (1, 0, 0) (ri_ori m2))).
Proof.
  exists toy_add, toy_predict, toy_cov, (msg sec), (msg (3 * sec)), (msg 0), (msg sec), (msg (2 * sec)).
  destruct (restart_keeps R false toy_add toy_predict toy_cov iid v0 (1, 0, 0) 0 (msg sec) (msg (3 * sec)) (msg 0) (msg sec) (msg (2 * sec))) as (s & outs & od & pa & A & B & C); try (unfold sec; cbn; lia).
  exists s, outs, od, pa. split; [exact A|]. split; [exact B|]. rewrite C. unfold toy_predict, toy_add, feed, initial_state, sec. cbn [n_pos n_vel timed msg ri_time app fold_left].
  vred. intros E. injection E; intros; lra.
Qed.
(* stamps that go back are integrated over a negative time, where GTSAM allows it *)
Theorem backwards_refuted : exists m0 m1 s outs, (ri_time m1 < ri_time m0)%Z /\ integrate_all R false toy_add toy_predict toy_cov iid v0 (1, 0, 0) (istate0 R 0) [m0; m1] = Ok (s, outs) /\ is_pim s < 0.
Proof.
  exists (msg (3 * sec)), (msg (2 * sec)). unfold integrate_all, integrate at 1. cbn [is_time istate0 Z.eqb rbind fst snd].
  destruct (step_some R false toy_add toy_predict toy_cov iid v0 (1, 0, 0) (mkIS (ri_time (msg (3 * sec))) 0 (initial_state iid v0 (1, 0, 0) (ri_ori (msg (3 * sec)))) (mkPath (mkH 0 0 MAP) [])) (msg (2 * sec))) as [_ B]; [unfold sec; cbn; lia|reflexivity|].
  destruct B as (od & pa & E & _); [unfold sec; cbn; lia|]. cbn [istate0 is_pim is_path is_initial is_time] in E |- *. rewrite E. cbn [rbind fst snd]. eexists. eexists. split; [unfold sec; cbn; lia|]. split; [reflexivity|]. cbn [is_pim].
  unfold toy_add, sec. cbn [msg ri_time]. rewrite minus_IZR, !mult_IZR. lra.
Qed.

(* the turned orientation covariance is no covariance *)
Definition ex_ocov : cmat := fun i j => Some (if Nat.eqb i j then INR (S i) else 0).
Theorem turned_covariance_refuted : exists r s, qunit r /\ (forall i j, ri_ocov s i j = ri_ocov s j i) /\ ri_ocov (imu_transform r false NONE s) 0%nat 1%nat <> ri_ocov (imu_transform r false NONE s) 1%nat 0%nat.
Proof.
  exists qt, (mkRI 0 BODY qI v0 v0 ex_ocov ex_ocov ex_ocov). split; [apply qt_unit|]. split.
  - intros i j. cbn [ri_ocov]. unfold ex_ocov. rewrite (Nat.eqb_sym j i). destruct (Nat.eqb_spec i j); [subst; reflexivity|reflexivity].
  - unfold imu_transform, turn_columns, ex_ocov. cbn [ri_ocov Nat.eqb]. rewrite qt_mat. unfold mt, mapply, vget. cbn [INR vdot]. intros E. injection E as E. lra.
Qed.
(* the second frame does not turn about the sensor *)
Definition ex_an : analysis := mkAn MAP true 7 (1, 0, 0) qI.
Theorem second_frame_refuted : exists c m a p, qunit (mi_ori m) /\ qunit (an_q c) /\ analyse c m = [a; mkTf (tf_header a) (an_frame c) p] /\ motion_of p <> imul (motion_of (tf_pose a)) (to_transform (an_t c) (an_q c)).
Proof.
  exists ex_an, (mkMI (mkH 0 4 BODY) qt v0 v0 (zeros 9) (zeros 9) (zeros 9)), (mkTf (mkH 0 4 MAP) BODY (mkMP v0 qt)). eexists. split; [apply qt_unit|]. split; [apply qunit_I|]. split; [reflexivity|].
  cbn [tf_pose]. intros E. apply (proj1 (second_frame ex_an (mkMI (mkH 0 4 BODY) qt v0 v0 (zeros 9) (zeros 9) (zeros 9)) _ qt_unit qunit_I eq_refl)) in E.
  cbn [mi_ori an_t ex_an] in E. rewrite qt_mat in E. unfold mt in E. revert E. vred. intros E. injection E. lra.
Qed.
Example ex_params : analysis_params [1; 2] [1; 0; 0; 0; 1; 0; 0; 0; 1] = Throw /\ exists v q, analysis_params [1; 2; 3] [1; 0; 0; 0; 1; 0; 0; 0; 1] = Ok (v, q).
Proof. split; [reflexivity|]. eexists. eexists. reflexivity. Qed.
(* reading an array into a list that is not empty keeps what was there *)
Theorem array_appended_refuted : exists ms old l, imus_from_ros ms old = Ok l /\ length l <> length ms.
Proof. exists [], [fresh_imu], [fresh_imu]. split; [reflexivity|discriminate]. Qed.
