(* Proofs: navigation and IMU tools. *)
From Coq Require Import ZArith Reals List Bool Lia Lra String.
From Verif Require Import Base Mx Interp Geo EgModel CvModel CvProofs EgProofs EgPose MsModel MsProofs MsPose NvModel NvSpec.
Import ListNotations.
Open Scope R_scope.

Lemma zeros_in n x : In x (zeros n) -> x = Some 0. Proof. intros H. apply repeat_spec in H. exact H. Qed.
Lemma cov_zero arr c : ros_cov arr c -> same 6 6 c (some2 zero6) -> no_uncertainty arr.
Proof.
  intros H S. pose proof (ros_cov_ext _ _ _ H S) as K. assert (Z : ros_cov (zeros 36) (some2 zero6)).
  { split; [reflexivity|]. intros i j Li Lj. unfold zeros, some2, zero6. repeat split; apply nth_error_repeat; lia. }
  pose proof (ros_cov_array _ _ _ K Z) as ->. split; [reflexivity|]. apply zeros_in.
Qed.
Lemma change_zero c t : eqm 6 6 c zero6 -> eqm 6 6 (change_covariance_frame c t) zero6.
Proof.
  intros H i j Hi Hj. unfold change_covariance_frame, change_covariance_adj, mulm, zero6. apply sum_zero. intros l Hl. rewrite (sum_zero 6 (fun k => transform_adjoint t i k * c k l)); [ring|].
  intros k Hk. rewrite H by assumption. unfold zero6. ring.
Qed.

(* ---- combining transforms ---- *)
Theorem subscribed_iff t k : subscribed t = Some k <->
  (k = KTransform /\ (t = None \/ t = Some "TransformStamped"%string)) \/ (k = KPose /\ t = Some "PoseStamped"%string) \/ (k = KPoseCov /\ t = Some "PoseWithCovarianceStamped"%string).
Proof.
  unfold subscribed. destruct t as [s|].
  - destruct (String.eqb_spec s "TransformStamped") as [->|N1]; [|destruct (String.eqb_spec s "PoseStamped") as [->|N2]; [|destruct (String.eqb_spec s "PoseWithCovarianceStamped") as [->|N3]]]; split; intros H;
    try (injection H as <-; auto); try discriminate; destruct H as [[-> [H|H]]|[[-> H]|[-> H]]]; try discriminate; try reflexivity; injection H; congruence.
  - split; [intros [= <-]; auto|]. intros [[-> _]|[[_ H]|[_ H]]]; [reflexivity|discriminate|discriminate].
Qed.
Definition inc_ok (k : kind) (m : increment) : Prop := qunit (mp_ori (in_pose m)) /\ (k = KPoseCov -> length (in_cov m) = 36%nat).
Lemma increment_ok k m : inc_ok k m -> exists v, increment_value k m = Ok (h_stamp (in_header m), v) /\ rp_pos v = mp_pos (in_pose m) /\ rp_ori v = mp_ori (in_pose m).
Proof.
  intros [U L]. destruct k; cbn; try (eexists; split; [reflexivity|]; split; reflexivity).
  unfold posec_from_ros. cbn. destruct (cov_from_ros_ok (in_cov m) (fun _ _ => Some 0) (L eq_refl)) as (c & E & _). rewrite E. cbn. eexists. split; [reflexivity|]. split; reflexivity.
Qed.
(* the state between messages: acc is the motion so far *)
Definition cinv (s : cstate) (acc : iso) : Prop :=
  pose_ok (o_pose (cs_odom s)) /\ pose_transform (o_pose (cs_odom s)) = acc /\ eqm 6 6 (p_cov (o_pose (cs_odom s))) zero6 /\ o_twist (cs_odom s) = mkTwist v0 v0 (fun _ _ => 0) /\
  o_frame (cs_odom s) = NONE /\ o_child (cs_odom s) = NONE /\ h_frame (pa_header (cs_path s)) = MAP.
Lemma combine_step s acc stamp t : cinv s acc -> qunit (rp_ori t) -> exists s' od pa, combine s stamp t = Ok (s', (od, pa)) /\ cinv s' (imul acc (to_transform (rp_pos t) (rp_ori t))) /\
  cs_path s' = pa /\ motion_of (mpc_pose (mo_pose od)) = imul acc (to_transform (rp_pos t) (rp_ori t)) /\ h_stamp (mo_header od) = stamp /\ h_frame (mo_header od) = NONE /\ mo_child od = NONE /\
  no_uncertainty (mpc_cov (mo_pose od)) /\ no_uncertainty (mtc_cov (mo_twist od)) /\ mtc_lin (mo_twist od) = v0 /\ mtc_ang (mo_twist od) = v0 /\
  h_stamp (pa_header pa) = stamp /\ pa_poses pa = pa_poses (cs_path s) ++ [(mkH 0 stamp NONE, mpc_pose (mo_pose od))].
Proof.
  intros (A & B & C & D & E & F & G) U. unfold combine. set (tp := mkPose (rp_pos t) (rp_ori t) (fun _ _ => 0)).
  destruct (apply_odometry_spec (cs_odom s) tp stamp A U) as (P1 & P2 & P3 & P4 & P5 & P6). set (o := apply_odometry (cs_odom s) tp stamp) in *.
  assert (CZ : eqm 6 6 (p_cov (o_pose o)) zero6) by (unfold o, apply_odometry, apply_pose; cbn [o_pose]; rewrite apply_cov; apply change_zero; exact C).
  unfold odom_to_ros, posec_to_ros, twistc_to_ros. cbn [blank_odom mo_pose mo_twist mo_header blank_pose blank_twist mpc_cov mtc_cov rodom_of ro_pose ro_twist rp_cov rt_cov ro_time ro_frame ro_child rp_pos rp_ori rt_lin rt_ang].
  destruct (cov_to_ros_ok (zeros 36) (some2 (p_cov (o_pose o))) eq_refl) as (a & EA & HA). destruct (cov_to_ros_ok (zeros 36) (some2 (t_cov (o_twist o))) eq_refl) as (b & EB & HB).
  rewrite EA. cbn [rbind]. rewrite EB. cbn [rbind]. eexists. eexists. eexists. split; [reflexivity|].
  assert (NA : no_uncertainty a) by (apply (cov_zero a _ HA); intros i j Hi Hj; unfold some2; rewrite (CZ i j Hi Hj); reflexivity).
  assert (NB : no_uncertainty b) by (apply (cov_zero b _ HB); intros i j Hi Hj; unfold some2; rewrite P2, D; reflexivity).
  unfold cinv. cbn [cs_odom cs_path pa_header pa_poses h_stamp h_frame mo_header mo_child mo_pose mo_twist mpc_pose mpc_cov mtc_lin mtc_ang mtc_cov]. rewrite P1, B. 
  repeat split; try assumption; try apply NA; try apply NB; try (rewrite P2, D; reflexivity); try (rewrite P2; exact D); try congruence.
  etransitivity; [exact P1|]. rewrite B. reflexivity.
Qed.
Definition inc_motion (m : increment) : iso := motion_of (in_pose m).
Lemma combine_from k l : (forall m, In m l -> inc_ok k m) -> forall s acc, cinv s acc -> exists s' outs, combine_all k s l = Ok (s', outs) /\ length outs = length l /\
  forall i m, nth_error l i = Some m -> exists od pa, nth_error outs i = Some (od, pa) /\
    motion_of (mpc_pose (mo_pose od)) = fold_left imul (map inc_motion (firstn (S i) l)) acc /\
    h_stamp (mo_header od) = h_stamp (in_header m) /\ h_frame (mo_header od) = NONE /\ mo_child od = NONE /\
    no_uncertainty (mpc_cov (mo_pose od)) /\ no_uncertainty (mtc_cov (mo_twist od)) /\ mtc_lin (mo_twist od) = v0 /\ mtc_ang (mo_twist od) = v0 /\
    h_stamp (pa_header pa) = h_stamp (in_header m) /\ h_frame (pa_header pa) = MAP /\
    pa_poses pa = pa_poses (cs_path s) ++ map (fun o => (mkH 0 (h_stamp (mo_header (fst o))) NONE, mpc_pose (mo_pose (fst o)))) (firstn (S i) outs).
Proof.
  induction l as [|m l IH]; intros OK s acc CI; [exists s, []; split; [reflexivity|]; split; [reflexivity|]; intros [|i] m H; discriminate|].
  destruct (increment_ok k m (OK m (or_introl eq_refl))) as (v & E & VP & VO). cbn [combine_all]. rewrite E. cbn [rbind fst snd].
  assert (U : qunit (rp_ori v)) by (rewrite VO; apply (OK m (or_introl eq_refl))).
  destruct (combine_step s acc (h_stamp (in_header m)) v CI U) as (s1 & od & pa & C1 & C2 & C3 & C4 & C5 & C6 & C7 & C8 & C9 & C10 & C11 & C12 & C13).
  rewrite C1. cbn [rbind fst snd]. destruct (IH (fun x X => OK x (or_intror X)) s1 _ C2) as (s2 & outs & D1 & D2 & D3). rewrite D1. cbn [rbind fst snd].
  assert (HF : h_frame (pa_header pa) = MAP) by (rewrite <- C3; apply C2).
  assert (MM : to_transform (rp_pos v) (rp_ori v) = inc_motion m) by (unfold inc_motion, motion_of; rewrite VP, VO; reflexivity). rewrite MM in *.
  exists s2, ((od, pa) :: outs). split; [reflexivity|]. split; [cbn; rewrite D2; reflexivity|]. intros [|i] m' H.
  - injection H as <-. exists od, pa. split; [reflexivity|]. cbn [firstn map fold_left fst snd]. repeat (split; [assumption|]). rewrite C13, C5. reflexivity.
  - cbn [nth_error] in H. destruct (D3 i m' H) as (od' & pa' & F1 & F2 & F3 & F4 & F5 & F6 & F7 & F8 & F9 & F10 & F11 & F12). exists od', pa'. split; [exact F1|].
    split; [rewrite F2; reflexivity|]. repeat (split; [assumption|]). rewrite F12, C3, C13, <- app_assoc. cbn [app firstn map fst]. rewrite C5. reflexivity.
Qed.
Lemma cinv0 : cinv cstate0 iid.
Proof.
  unfold cinv, cstate0. cbn. repeat split; try reflexivity; [unfold pose_ok, qunit, qdot, qI; cbn; ring|]. unfold pose_transform, to_transform, iid. cbn. f_equal. apply qmat_I.
Qed.
Theorem combined k l : (forall m, In m l -> inc_ok k m) -> exists s outs, combine_all k cstate0 l = Ok (s, outs) /\ length outs = length l /\
  forall i m, nth_error l i = Some m -> exists od pa, nth_error outs i = Some (od, pa) /\
    motion_of (mpc_pose (mo_pose od)) = one_after_another (map inc_motion (firstn (S i) l)) /\
    h_stamp (mo_header od) = h_stamp (in_header m) /\ h_stamp (pa_header pa) = h_stamp (in_header m) /\ h_frame (pa_header pa) = MAP /\
    pa_poses pa = map (fun o => (mkH 0 (h_stamp (mo_header (fst o))) NONE, mpc_pose (mo_pose (fst o)))) (firstn (S i) outs).
Proof.
  intros OK. destruct (combine_from k l OK cstate0 iid cinv0) as (s & outs & A & B & C). exists s, outs. split; [exact A|]. split; [exact B|]. intros i m H.
  destruct (C i m H) as (od & pa & F1 & F2 & F3 & F4 & F5 & F6 & F7 & F8 & F9 & F10 & F11 & F12). exists od, pa. repeat (split; [assumption|]). exact F12.
Qed.
(* finding: whatever the uncertainty of the increments, none is published, nor a velocity, nor the names of the frames *)
Theorem no_uncertainty_published k l s outs od pa : (forall m, In m l -> inc_ok k m) -> combine_all k cstate0 l = Ok (s, outs) -> In (od, pa) outs ->
  no_uncertainty (mpc_cov (mo_pose od)) /\ no_uncertainty (mtc_cov (mo_twist od)) /\ mtc_lin (mo_twist od) = v0 /\ mtc_ang (mo_twist od) = v0 /\ h_frame (mo_header od) = NONE /\ mo_child od = NONE.
Proof.
  intros OK E I. destruct (combine_from k l OK cstate0 iid cinv0) as (s' & outs' & A & B & C). rewrite A in E. injection E as <- <-. apply In_nth_error in I. destruct I as [i I].
  assert (L : (i < length outs')%nat) by (apply nth_error_Some; congruence). destruct (nth_error l i) as [m|] eqn:M; [|apply nth_error_None in M; lia].
  destruct (C i m M) as (od' & pa' & F1 & F2 & F3 & F4 & F5 & F6 & F7 & F8 & F9 & F10 & F11 & F12). rewrite I in F1. injection F1 as <- <-. tauto.
Qed.

(* ---- odometry to tf ---- *)
Theorem tf_of_odometry m : tf_header (odometry_tf m) = mo_header m /\ tf_child (odometry_tf m) = mo_child m /\ motion_of (tf_pose (odometry_tf m)) = motion_of (mpc_pose (mo_pose m)).
Proof. unfold odometry_tf, motion_of. destruct (mp_pos (mpc_pose (mo_pose m))) as [[x y] z] eqn:E. cbn. rewrite ?E. repeat split. Qed.

(* ---- integrating ---- *)
Section I.
Variable pim : Type.
Variable strict : bool.
Variable add : pim -> vec3 -> vec3 -> R -> pim.
Variable predict : pim -> nav -> nav.
Variable pcov : pim -> mx.
Variable imu_body : iso.
Variable position velocity : vec3.
Notation run := (integrate_all pim strict add predict pcov imu_body position velocity).
Notation stepi := (integrate pim strict add predict pcov imu_body position velocity).
Lemma dt_zero a b : IZR (a - b) / 1000000000 = 0 <-> a = b.
Proof.
  split.
  - intros H. assert (E : IZR (a - b) = 0) by (apply (Rmult_eq_reg_r (/ 1000000000)); [unfold Rdiv in H; lra|lra]). apply eq_IZR in E. lia.
  - intros ->. rewrite Z.sub_diag. unfold Rdiv. ring.
Qed.
Lemma dt_neg a b : IZR (a - b) / 1000000000 < 0 <-> (a < b)%Z.
Proof.
  split.
  - intros H. assert (E : IZR (a - b) < 0) by (unfold Rdiv in H; nra). apply lt_IZR in E. lia.
  - intros H. assert (E : IZR (a - b) < 0) by (apply IZR_lt; lia). unfold Rdiv. nra.
Qed.
(* what is published for message m when the integrator holds p and started from x0, appended to the poses before *)
Definition published (x0 : nav) (p : pim) (before : list (mheader * mpose)) (m : rimu) (od : modom) (pa : path) : Prop :=
  mp_pos (mpc_pose (mo_pose od)) = n_pos (predict p x0) /\ (proper (n_rot (predict p x0)) -> qmat (mp_ori (mpc_pose (mo_pose od))) = n_rot (predict p x0)) /\
  mtc_lin (mo_twist od) = n_vel (predict p x0) /\ mtc_ang (mo_twist od) = ri_w m /\ mo_header od = mkH 0 (ri_time m) MAP /\
  ros_cov (mpc_cov (mo_pose od)) (some2 (pcov p)) /\
  (forall i j, (i < 3)%nat -> (j < 3)%nat -> nth_error (mtc_cov (mo_twist od)) (6 * i + j) = Some (Some (pcov p (6 + i)%nat (6 + j)%nat)) /\
     nth_error (mtc_cov (mo_twist od)) (6 * (3 + i) + (3 + j)) = Some (ri_wcov m i j)) /\
  h_stamp (pa_header pa) = ri_time m /\ h_frame (pa_header pa) = MAP /\ pa_poses pa = before ++ [(mkH 0 (ri_time m) BODY, mpc_pose (mo_pose od))].
Lemma step_some s m : is_time s <> 0%Z -> h_frame (pa_header (is_path s)) = MAP ->
  (ri_time m = is_time s \/ strict = true /\ (ri_time m < is_time s)%Z -> stepi s m = Throw) /\
  (~ (ri_time m = is_time s \/ strict = true /\ (ri_time m < is_time s)%Z) -> exists od pa, let p := add (is_pim s) (ri_a m) (ri_w m) (IZR (ri_time m - is_time s) / 1000000000) in
     stepi s m = Ok (mkIS (ri_time m) p (is_initial s) pa, Some (od, pa)) /\ published (is_initial s) p (pa_poses (is_path s)) m od pa).
Proof.
  intros T HF. unfold integrate. destruct (Z.eqb_spec (is_time s) 0) as [E|_]; [contradiction|]. cbv zeta. split.
  - intros E. destruct (Req_EM_T _ 0) as [_|N]; [reflexivity|]. destruct E as [E|[-> E]]; [exfalso; apply N; apply dt_zero; exact E|]. destruct (Rlt_dec _ 0) as [_|L]; [reflexivity|]. exfalso. apply L. apply dt_neg. exact E.
  - intros E. destruct (Req_EM_T _ 0) as [N|_]; [exfalso; apply E; left; apply dt_zero; exact N|].
    assert (ES : strict && (if Rlt_dec (IZR (ri_time m - is_time s) / 1000000000) 0 then true else false) = false).
    { destruct (Rlt_dec _ 0) as [L|_]; [|apply andb_false_r]. destruct strict eqn:S; [|reflexivity]. exfalso. apply E. right. split; [reflexivity|]. apply dt_neg. exact L. }
    rewrite ES. set (p := add _ _ _ _).
    destruct (cov_to_ros_ok (zeros 36) (some2 (pcov p)) eq_refl) as (a & EA & HA). destruct (cov_to_ros_ok (zeros 36) (velocity_cov (ri_wcov m) (pcov p)) eq_refl) as (b & EB & HB). rewrite EA. cbn [rbind]. rewrite EB. cbn [rbind].
    eexists. eexists. split; [reflexivity|]. unfold published. cbn [mpc_pose mo_pose mp_pos mp_ori mo_twist mtc_lin mtc_ang mo_header mpc_cov mtc_cov pa_header pa_poses h_stamp h_frame].
    split; [reflexivity|]. split; [intros P; apply quat_of_spec; exact P|]. split; [reflexivity|]. split; [reflexivity|]. split; [reflexivity|]. split; [exact HA|]. split; [|split; [reflexivity|split; [exact HF|reflexivity]]].
    intros i j Li Lj. destruct HB as [_ HB]. destruct (HB i j Li Lj) as (B1 & _ & _ & B4). rewrite B1, B4. unfold velocity_cov.
    assert (Nat.ltb i 3 = true /\ Nat.ltb j 3 = true) as [-> ->] by (rewrite !Nat.ltb_lt; lia). assert (Nat.ltb (3 + i) 3 = false /\ Nat.ltb (3 + j) 3 = false) as [-> ->] by (rewrite !Nat.ltb_ge; lia).
    unfold corner. replace (3 + i - 3)%nat with i by lia. replace (3 + j - 3)%nat with j by lia. split; reflexivity.
Qed.
Lemma run_from l : forall s, is_time s <> 0%Z -> (forall m, In m l -> ri_time m <> 0%Z) -> h_frame (pa_header (is_path s)) = MAP ->
  (stalls strict (is_time s) l -> run s l = Throw) /\
  (~ stalls strict (is_time s) l -> exists s' outs, run s l = Ok (s', outs) /\ length outs = length l /\
     forall i m, nth_error l i = Some m -> exists od pa, nth_error outs i = Some (od, pa) /\
       published (is_initial s) (feed add (is_pim s) (firstn (S i) (timed (is_time s) l)))
         (pa_poses (is_path s) ++ map (fun o => (mkH 0 (h_stamp (mo_header (fst o))) BODY, mpc_pose (mo_pose (fst o)))) (firstn i outs)) m od pa).
Proof.
  induction l as [|m l IH]; intros s T NZ HF; cbn [stalls].
  - split; [contradiction|]. intros _. exists s, []. split; [reflexivity|]. split; [reflexivity|]. intros [|i] m H; discriminate.
  - destruct (step_some s m T HF) as [A B]. cbn [integrate_all]. assert (D : {ri_time m = is_time s \/ strict = true /\ (ri_time m < is_time s)%Z} + {~ (ri_time m = is_time s \/ strict = true /\ (ri_time m < is_time s)%Z)}).
    { destruct (Z.eq_dec (ri_time m) (is_time s)); [left; auto|]. destruct (Z_lt_dec (ri_time m) (is_time s)); [|right; lia]. destruct strict; [left; auto|right; intros [?|[? _]]; [contradiction|discriminate]]. }
    destruct D as [E|NE].
    + rewrite (A E). split; [reflexivity|]. intros N. exfalso. apply N. left. exact E.
    + destruct (B NE) as (od & pa & S1 & S2). cbv zeta in S1, S2. rewrite S1. cbn [rbind fst snd]. set (s1 := mkIS _ _ _ _) in *.
      assert (HF1 : h_frame (pa_header (is_path s1)) = MAP) by apply S2.
      destruct (IH s1 (NZ m (or_introl eq_refl)) (fun x X => NZ x (or_intror X)) HF1) as [I1 I2]. split.
      * intros [E|R1]; [contradiction|]. rewrite (I1 R1). reflexivity.
      * intros N. destruct I2 as (s2 & outs & J1 & J2 & J3); [intros R1; apply N; right; exact R1|]. rewrite J1. cbn [rbind fst snd]. exists s2, ((od, pa) :: outs). split; [reflexivity|]. split; [cbn; rewrite J2; reflexivity|].
        intros [|i] m' H.
        -- injection H as <-. exists od, pa. split; [reflexivity|]. cbn [firstn map timed feed fold_left]. rewrite app_nil_r. exact S2.
        -- cbn [nth_error] in H. destruct (J3 i m' H) as (od' & pa' & F1 & F2). exists od', pa'. split; [exact F1|]. cbn [firstn map timed fst]. destruct S2 as (_ & _ & _ & _ & HH & _ & _ & _ & _ & PP). rewrite HH. cbn [h_stamp].
           unfold s1 in F2. cbn [is_initial is_pim is_time is_path] in F2. rewrite PP, <- app_assoc in F2. exact F2.
Qed.
(* the first message sets the state; every later one is integrated over the time since the message before it *)
Theorem integrated p0 m0 l : ri_time m0 <> 0%Z -> (forall m, In m l -> ri_time m <> 0%Z) ->
  (stalls strict (ri_time m0) l -> run (istate0 pim p0) (m0 :: l) = Throw) /\
  (~ stalls strict (ri_time m0) l -> exists s outs, run (istate0 pim p0) (m0 :: l) = Ok (s, outs) /\ length outs = length l /\
     forall i m, nth_error l i = Some m -> exists od pa, nth_error outs i = Some (od, pa) /\
       published (initial_state imu_body position velocity (ri_ori m0)) (feed add p0 (firstn (S i) (timed (ri_time m0) l)))
         (map (fun o => (mkH 0 (h_stamp (mo_header (fst o))) BODY, mpc_pose (mo_pose (fst o)))) (firstn i outs)) m od pa).
Proof.
  intros T NZ. cbn [integrate_all]. unfold integrate at 1 2. cbn [is_time istate0 Z.eqb rbind fst snd]. set (s1 := mkIS _ _ _ _). destruct (run_from l s1 T NZ eq_refl) as [A B]. split.
  - intros R1. rewrite (A R1). reflexivity.
  - intros N. destruct (B N) as (s2 & outs & C1 & C2 & C3). rewrite C1. cbn [rbind fst snd]. exists s2, outs. split; [reflexivity|]. split; [exact C2|exact C3].
Qed.
(* the times add up to the time since the first message *)
Theorem times_add_up t l i m : nth_error l i = Some m -> total (firstn (S i) (timed t l)) = IZR (ri_time m - t) / 1000000000.
Proof.
  revert t i. induction l as [|a l IH]; intros t [|i] H; try discriminate.
  - injection H as ->. cbn. lra.
  - cbn [nth_error] in H. specialize (IH (ri_time a) i H). cbn [timed]. rewrite firstn_cons. cbn [total fold_right snd]. fold (total (firstn (S i) (timed (ri_time a) l))). rewrite IH. rewrite !minus_IZR. field.
Qed.
Theorem initial_orientation ori : initial_state imu_body position velocity (0, 0, 0, 0) = mkNav mI position velocity /\
  (qunit ori -> motion imu_body -> n_rot (initial_state imu_body position velocity ori) = mmul (qmat ori) (lin imu_body)).
Proof.
  unfold initial_state. split.
  - destruct (qzero_dec (0, 0, 0, 0)) as [_|N]; [|contradiction N; reflexivity]. rewrite qmat_I. reflexivity.
  - intros U M. destruct (qzero_dec ori) as [->|_]; [exfalso; unfold qunit, qdot in U; cbn in U; lra|]. cbn [n_rot]. apply quat_of_spec. apply proper_mul; [apply qmat_proper; exact U|exact M].
Qed.
(* with a GTSAM that refuses steps back, a stamp not later than the one before ends the node, stamp 0 included *)
Lemma strict_from l : strict = true -> forall s, (0 < is_time s)%Z -> h_frame (pa_header (is_path s)) = MAP -> stalls true (is_time s) l -> run s l = Throw.
Proof.
  intros ST. induction l as [|m l IH]; intros s T HF S; [contradiction|]. assert (T' : is_time s <> 0%Z) by lia. destruct (step_some s m T' HF) as [A B]. cbn [integrate_all].
  destruct (Z_le_gt_dec (ri_time m) (is_time s)) as [L|L].
  - rewrite A; [reflexivity|]. rewrite ST. destruct (Z.eq_dec (ri_time m) (is_time s)); [left; assumption|right; split; [reflexivity|lia]].
  - destruct B as (od & pa & S1 & S2); [lia|]. cbv zeta in S1, S2. rewrite S1. cbn [rbind fst snd]. rewrite IH; [reflexivity|cbn; lia|cbn; apply S2|]. cbn [is_time]. destruct S as [[S|[_ S]]|S]; [lia|lia|exact S].
Qed.
Lemma stalls_of l : forall t i a b, nth_error (t :: map ri_time l) i = Some a -> nth_error (t :: map ri_time l) (S i) = Some b -> (b <= a)%Z -> stalls true t l.
Proof.
  induction l as [|m l IH]; intros t i a b HA HB L; [destruct i; discriminate|]. cbn [stalls]. destruct i as [|i].
  - cbn in HA, HB. injection HA as <-. injection HB as <-. left. lia.
  - right. exact (IH _ i a b HA HB L).
Qed.
Theorem back_refused p0 m0 l i a b : strict = true -> (0 < ri_time m0)%Z -> nth_error (m0 :: l) i = Some a -> nth_error (m0 :: l) (S i) = Some b -> (ri_time b <= ri_time a)%Z ->
  run (istate0 pim p0) (m0 :: l) = Throw.
Proof.
  intros ST T HA HB L. cbn [integrate_all]. unfold integrate at 1. cbn [is_time istate0 Z.eqb rbind fst snd]. rewrite (strict_from l ST); [reflexivity|exact T|reflexivity|].
  apply (stalls_of l _ i (ri_time a) (ri_time b)); [..|exact L].
  - change (nth_error (map ri_time (m0 :: l)) i = Some (ri_time a)). apply map_nth_error. exact HA.
  - change (nth_error (map ri_time (m0 :: l)) (S i) = Some (ri_time b)). apply map_nth_error. exact HB.
Qed.
(* finding: with one that accepts them, a message with stamp 0 makes the next one a first message, but the integrator keeps what it had *)
Theorem restart_keeps p0 m0 m1 mz m2 m3 : strict = false -> ri_time m0 <> 0%Z -> ri_time m1 <> 0%Z -> ri_time mz = 0%Z -> ri_time m2 <> 0%Z -> ri_time m3 <> 0%Z ->
  ri_time m0 <> ri_time m1 -> ri_time m2 <> ri_time m3 ->
  exists s outs od pa, run (istate0 pim p0) [m0; m1; mz; m2; m3] = Ok (s, outs ++ [(od, pa)]) /\ length outs = 2%nat /\
    mp_pos (mpc_pose (mo_pose od)) = n_pos (predict (feed add p0 (timed (ri_time m0) [m1; mz] ++ timed (ri_time m2) [m3])) (initial_state imu_body position velocity (ri_ori m2))).
Proof.
  intros SF T0 T1 TZ T2 T3 N1 N2. cbn [integrate_all]. unfold integrate at 1. cbn [is_time istate0 Z.eqb rbind fst snd].
  destruct (step_some (mkIS (ri_time m0) p0 (initial_state imu_body position velocity (ri_ori m0)) (mkPath (mkH 0 0 MAP) [])) m1 T0 eq_refl) as [_ A]. destruct A as (od1 & pa1 & A1 & A2); [cbn; intros [?|[? _]]; congruence|].
  cbn [is_pim is_path is_initial istate0] in A1, A2 |- *. rewrite A1. cbn [rbind fst snd].
  match type of A1 with _ = Ok (?s, _) => destruct (step_some s mz T1 ltac:(apply A2)) as [_ B] end. destruct B as (od2 & pa2 & B1 & B2); [cbn; intros [?|[? _]]; congruence|]. cbn [is_pim is_path is_initial is_time] in B1, B2 |- *. rewrite B1. cbn [rbind fst snd].
  unfold integrate at 1. cbn [is_time]. rewrite TZ. cbn [Z.eqb rbind fst snd is_pim is_path].
  match goal with |- context [integrate _ _ _ _ _ _ _ _ ?s m3] => destruct (step_some s m3 T2 ltac:(apply B2)) as [_ C] end. destruct C as (od3 & pa3 & C1 & C2); [cbn; intros [?|[? _]]; congruence|]. cbn [is_pim is_path is_initial is_time] in C1, C2 |- *. rewrite TZ in *. rewrite C1. cbn [rbind fst snd].
  eexists. exists [(od1, pa1); (od2, pa2)], od3, pa3. split; [reflexivity|]. split; [reflexivity|]. destruct C2 as [C2 _]. rewrite C2. cbn [timed feed fold_left app]. rewrite ?TZ. reflexivity.
Qed.
End I.

(* ---- IMU tools ---- *)
Theorem imu_transformed r ow nf s : qunit r -> qunit (ri_ori s) -> let s' := imu_transform r ow nf s in
  qunit (ri_ori s') /\ (forall v, mapply (qmat (ri_ori s')) v = mapply (qmat r) (mapply (qmat (ri_ori s)) v)) /\
  ri_w s' = ri_w s /\ ri_a s' = ri_a s /\ ri_wcov s' = ri_wcov s /\ ri_acov s' = ri_acov s /\ ri_time s' = ri_time s /\ ri_frame s' = (if ow then nf else ri_frame s).
Proof.
  intros U V. cbn. split; [apply qunit_mul; assumption|]. split; [intros v; rewrite qmat_mul, mapply_mul by assumption; reflexivity|]. repeat split.
Qed.
Theorem analysed c m : qunit (mi_ori m) -> qunit (an_q c) -> exists h, h_stamp h = h_stamp (mi_header m) /\ h_frame h = an_fixed c /\
  (an_apply c = false -> analyse c m = [mkTf h (h_frame (mi_header m)) (mkMP v0 (mi_ori m))]) /\
  (an_apply c = true -> exists p, analyse c m = [mkTf h (h_frame (mi_header m)) (mkMP v0 (mi_ori m)); mkTf h (an_frame c) p] /\ mp_pos p = an_t c /\ qmat (mp_ori p) = mmul (qmat (mi_ori m)) (qmat (an_q c))).
Proof.
  intros U V. exists (mkH 0 (h_stamp (mi_header m)) (an_fixed c)). split; [reflexivity|]. split; [reflexivity|]. unfold analyse. split; intros ->; [reflexivity|]. eexists. split; [reflexivity|]. split; [reflexivity|]. apply qmat_mul; assumption.
Qed.
(* the second frame is where the settings put it relative to the IMU exactly if the translation does not turn with the sensor *)
Theorem second_frame c m p : qunit (mi_ori m) -> qunit (an_q c) -> analyse c m = [mkTf (mkH 0 (h_stamp (mi_header m)) (an_fixed c)) (h_frame (mi_header m)) (mkMP v0 (mi_ori m)); mkTf (mkH 0 (h_stamp (mi_header m)) (an_fixed c)) (an_frame c) p] ->
  motion_of p = imul (motion_of (mkMP v0 (mi_ori m))) (to_transform (an_t c) (an_q c)) <-> mapply (qmat (mi_ori m)) (an_t c) = an_t c.
Proof.
  intros U V. unfold analyse. destruct (an_apply c); intros H; [|discriminate]. injection H as <-. unfold motion_of, to_transform, imul. cbn [mp_pos mp_ori lin tr]. rewrite qmat_mul, vadd_0_r by assumption. split.
  - intros E. injection E as E. symmetry. exact E.
  - intros ->. reflexivity.
Qed.
Theorem analysis_params_throw t r : analysis_params t r = Throw <-> (length t < 3)%nat \/ (length r < 9)%nat.
Proof.
  unfold analysis_params. destruct t as [|x [|y [|z t]]]; cbn [length]; try (split; [intros _; left; lia|reflexivity]).
  do 9 (destruct r as [|? r]; [split; [intros _; right; cbn; lia|reflexivity]|]). split; [discriminate|]. cbn. lia.
Qed.
(* three lengths and the nine entries of the rotation by rows *)
Theorem analysis_params_rows x y z t a b c d e f g h i r : proper ((a, b, c), (d, e, f), (g, h, i)) ->
  exists q, analysis_params (x :: y :: z :: t) (a :: b :: c :: d :: e :: f :: g :: h :: i :: r) = Ok ((x, y, z), q) /\ qunit q /\ qmat q = ((a, b, c), (d, e, f), (g, h, i)).
Proof. intros M. destruct (quat_of_spec _ M) as [E U]. eexists. split; [reflexivity|]. split; [exact U | exact E]. Qed.
(* the orientation covariance C goes out as R C, which is the turned covariance R C R^T exactly if C R^T = C *)
Definition holds (c : cmat) (m : mat3) : Prop := forall i j, (i < 3)%nat -> (j < 3)%nat -> c i j = Some (vget (mapply m (if Nat.eqb j 0 then (1, 0, 0) else if Nat.eqb j 1 then (0, 1, 0) else (0, 0, 1))) i).
Lemma holds_inj c m m' : holds c m -> holds c m' -> m = m'.
Proof.
  intros H K. assert (E : forall i j, (i < 3)%nat -> (j < 3)%nat -> vget (mapply m (if Nat.eqb j 0 then (1, 0, 0) else if Nat.eqb j 1 then (0, 1, 0) else (0, 0, 1))) i = vget (mapply m' (if Nat.eqb j 0 then (1, 0, 0) else if Nat.eqb j 1 then (0, 1, 0) else (0, 0, 1))) i)
    by (intros i j Li Lj; specialize (H i j Li Lj); specialize (K i j Li Lj); congruence).
  pose proof (E 0%nat 0%nat ltac:(lia) ltac:(lia)) as E00. pose proof (E 0%nat 1%nat ltac:(lia) ltac:(lia)) as E01. pose proof (E 0%nat 2%nat ltac:(lia) ltac:(lia)) as E02.
  pose proof (E 1%nat 0%nat ltac:(lia) ltac:(lia)) as E10. pose proof (E 1%nat 1%nat ltac:(lia) ltac:(lia)) as E11. pose proof (E 1%nat 2%nat ltac:(lia) ltac:(lia)) as E12.
  pose proof (E 2%nat 0%nat ltac:(lia) ltac:(lia)) as E20. pose proof (E 2%nat 1%nat ltac:(lia) ltac:(lia)) as E21. pose proof (E 2%nat 2%nat ltac:(lia) ltac:(lia)) as E22. clear E H K.
  destruct m as [[[[a b] d] [[e f] g]] [[h i] j]]. destruct m' as [[[[a' b'] d'] [[e' f'] g']] [[h' i'] j']]. cbn in *. tup; lra.
Qed.
Theorem turned_covariance_iff r ow nf s C : qunit r -> holds (ri_ocov s) C ->
  holds (ri_ocov (imu_transform r ow nf s)) (mmul (qmat r) C) /\
  (holds (ri_ocov (imu_transform r ow nf s)) (rotate_point_covariance C (qmat r)) <-> mmul C (mT (qmat r)) = C).
Proof.
  intros U H. assert (A : holds (ri_ocov (imu_transform r ow nf s)) (mmul (qmat r) C)).
  { intros i j Li Lj. unfold imu_transform. cbn [ri_ocov]. unfold turn_columns. rewrite !H by lia. f_equal. rewrite mapply_mul. set (w := if Nat.eqb j 0 then _ else _). destruct (mapply C w) as [[x y] z]. reflexivity. }
  split; [exact A|]. destruct (qmat_orth r U) as [O1 O2]. unfold rotate_point_covariance. split.
  - intros B. pose proof (holds_inj _ _ _ A B) as E. apply (f_equal (mmul (mT (qmat r)))) in E. rewrite <- mmul_assoc in E. rewrite !mmul_assoc, O1, !mmul_I_l in E. symmetry. exact E.
  - intros E. rewrite <- mmul_assoc, E. exact A.
Qed.

(* ---- serpent messages ---- *)
Theorem bias_round_trip m b stamp frame : bias_from_ros (bias_to_ros m b stamp frame) = b /\ h_stamp (mb_header (bias_to_ros m b stamp frame)) = stamp /\ h_frame (mb_header (bias_to_ros m b stamp frame)) = frame.
Proof. destruct b. repeat split. Qed.
Definition imu_same (a b : rimu) : Prop := ri_time a = ri_time b /\ ri_frame a = ri_frame b /\ ri_ori a = ri_ori b /\ ri_w a = ri_w b /\ ri_a a = ri_a b /\
  same 3 3 (ri_ocov a) (ri_ocov b) /\ same 3 3 (ri_wcov a) (ri_wcov b) /\ same 3 3 (ri_acov a) (ri_acov b).
Theorem imus_round_trip l : forall t0 v0', exists ms vs, imus_to_ros t0 l = Ok (t0 ++ ms) /\ length ms = length l /\ imus_from_ros ms v0' = Ok (v0' ++ vs) /\ Forall2 imu_same vs l.
Proof.
  induction l as [|s l IH]; intros t0 u0; cbn [imus_to_ros].
  - exists [], []. rewrite !app_nil_r. cbn. rewrite ?app_nil_r. repeat split. constructor.
  - destruct (imu_round_trip s fresh_imu blank_imu eq_refl eq_refl eq_refl) as (m & s' & E & _ & _ & _ & _ & _ & _ & _ & _ & E' & K). rewrite E. cbn [rbind].
    destruct (IH (t0 ++ [m]) (u0 ++ [s'])) as (ms & vs & A & B & C & D). exists (m :: ms), (s' :: vs). rewrite A, <- app_assoc. split; [reflexivity|]. split; [cbn; rewrite B; reflexivity|].
    cbn [imus_from_ros]. rewrite E'. cbn [rbind]. rewrite C, <- app_assoc. split; [reflexivity|]. constructor; [exact K|exact D].
Qed.
Theorem pose3_round_trip p : motion p -> pose3_from_ros (pose3_to_ros p) = p. Proof. apply iso_round_trip. Qed.
