(* Concrete runs of the front end's messages and refutations. *)
From Coq Require Import ZArith QArith Lia Reals Qreals Lra List Bool String Sorted.
From Verif Require Import Base Mx Interp Geo EgModel EgProofs CvModel MsModel MsPose MsProofs NvModel NvSpec BfModel BfSpec BfProofs BfTheorems BfLaws BfExamples PcGeom PcGeomProofs FoModel FoSpec FoLive FoProofs.
From Verif Require CfgModel.
Import ListNotations.
Open Scope R_scope.
Open Scope string_scope.
Open Scope list_scope.

(* base_link one metre ahead of the body frame, imu upside down, lidar turned about the vertical *)
Definition fe_frames : list (string * xv) := [
  ("base_link", XStruct [("translation", XStruct [("x", XDouble 1)])]);
  ("imu", XStruct [("rotation", XStruct [("w", XDouble 0); ("x", XDouble 1)])]);
  ("lidar", XStruct [("rotation", XStruct [("w", XDouble (4 / 5)); ("z", XDouble (3 / 5))])])].
Definition fe_root : xv := XStruct [("frames", XStruct fe_frames)].
Definition fe_cfg : xv := XStruct [("body", fe_root)].
Definition ahead : iso := mkIso mI (1, 0, 0)%R.
Definition flipped : iso := mkIso (qmat (0, 1, 0, 0)%R) v0.
Definition yawed : iso := mkIso (qmat (4 / 5, 0, 0, 3 / 5)%R) v0.
Lemma no_tf_motions : tf_motions no_tf. Proof. intros a c time t H. discriminate. Qed.
Lemma fe_loads : exists b, load no_tf fe_cfg = Ok b.
Proof. cbv -[R0 R1 Rplus Rmult Ropp Rinv Rdiv Rlt_dec sqrt IZR IPR IPR_2 INR qnormalise qmat mmul mapply vadd mT vopp]. eexists. reflexivity. Qed.
Lemma turns_unit q : qunit q -> turns q (qmat q).
Proof. intros U. right. exists q, 1. split; [exact U|]. split; [lra|]. split; [|reflexivity]. destruct q as [[[w x] y] z]. tup; ring. Qed.
Lemma fe_place f v T : In (f, v) fe_frames -> declared_dynamic v = false -> declared_lookup v = false -> tr T = declared_translation v -> turns (declared_rotation v) (lin T) -> placed no_tf fe_cfg f T.
Proof.
  intros I D L A B. exists "body", fe_root. split; [reflexivity|]. rewrite <- (imul_id_l T). apply (s_in no_tf "body" fe_root "body" f v iid T).
  - apply d_top. exact I.
  - exact D.
  - apply s_body.
  - unfold local. rewrite L. auto.
Qed.
Lemma fe_base_link : placed no_tf fe_cfg "base_link" ahead.
Proof. apply (fe_place "base_link" (XStruct [("translation", XStruct [("x", XDouble 1)])])); try reflexivity; [left; reflexivity|]. cbn. rewrite <- qmat_I. apply turns_unit. apply qunit_I. Qed.
Lemma fe_imu : placed no_tf fe_cfg "imu" flipped.
Proof. apply (fe_place "imu" (XStruct [("rotation", XStruct [("w", XDouble 0); ("x", XDouble 1)])])); try reflexivity; [right; left; reflexivity|]. apply (turns_unit (0, 1, 0, 0)%R). unfold qunit, qdot. ring. Qed.
Lemma fe_lidar : placed no_tf fe_cfg "lidar" yawed.
Proof. apply (fe_place "lidar" (XStruct [("rotation", XStruct [("w", XDouble (4 / 5)); ("z", XDouble (3 / 5))])])); try reflexivity; [right; right; left; reflexivity|]. apply (turns_unit (4 / 5, 0, 0, 3 / 5)%R). unfold qunit, qdot. field. Qed.
Lemma fe_body : body_named fe_cfg "body". Proof. exists "body", fe_root. split; reflexivity. Qed.

(* ---- live odometry: an integrator that moves on with the velocity; it keeps the measurements ---- *)
Definition toy := list (vec3 * vec3 * R).
Definition toy_new (a g : cmat) (bi : bias) : res toy := Ok [].
Definition toy_add (p : toy) (a w : vec3) (dt : R) : toy := p ++ [(a, w, dt)].
Definition toy_predict (p : toy) (s : nav) (bi : bias) : nav := mkNav (n_rot s) (vadd (n_pos s) (vscale (total p) (n_vel s))) (n_vel s).
Definition zero_cov : cmat := fun _ _ => Some 0.
Definition reading (t : Z) (w : vec3) : rimu := mkRI t 0%nat (0, 0, 0, 0)%R w v0 zero_cov zero_cov zero_cov.
(* the body faces left and moves forward with 1 m/s *)
Definition quarter : quat := (sqrt 2 / 2, 0, 0, sqrt 2 / 2)%R.
Definition o_state (t : Z) (q : quat) (v : vec3) : odo := mkOdo t "map" "body" (mkRP v0 q zero_cov) (mkRT v v0 zero_cov).
Definition fe_run (q : quat) (v g w : vec3) : list event := [EImu (reading 0 w); EImu (reading 2000000000 w); EOdometry (o_state 1000000000 q v) (mkBias v0 g)].
Definition fe_last (w : vec3) : rimu := reading 3000000000 w.
Lemma fe_ordered q v g w : in_order (imus (fe_run q v g w ++ [EImu (fe_last w)])).
Proof. unfold in_order. cbn. repeat constructor; cbn; reflexivity. Qed.
Definition fe_live b := lrun no_tf b "map" toy toy_new toy_add toy_predict None.
Lemma fe_msgs b o : exists out, base_link_messages no_tf b o = Ok out.
Proof. apply base_link_never_throws. discriminate. Qed.
Lemma fe_runs b q v g w : load no_tf fe_cfg = Ok b -> exists s out, fe_live b (live0 toy) (fe_run q v g w ++ [EImu (fe_last w)]) = Ok (s, out).
Proof.
  intros H. destruct (placed_lookup no_tf no_tf fe_cfg b H no_tf_motions "imu" flipped 0%Z fe_imu) as (F & _). pose proof (body_lookup no_tf fe_cfg b H "body" fe_body) as Hb.
  unfold fe_live, fe_run. cbn [app lrun]. cbn [lstep]. unfold on_imu at 1. cbn [live0 lv_pim lv_buf lv_state lv_bias rbind fst snd app]. unfold on_imu at 1. cbn [lv_pim lv_buf lv_state lv_bias rbind fst snd app received].
  unfold on_odometry. destruct (fe_msgs b (o_state 1000000000 q v)) as [out ->]. cbn [rbind lv_buf]. change (around (od_time (o_state 1000000000 q v)) [reading 0 w; reading 2000000000 w]) with (@Ok (rimu * rimu) (reading 0 w, reading 2000000000 w)).
  cbn [rbind]. unfold toy_new. cbn [rbind]. unfold replay. cbn [od_time o_state ri_time reading]. change (1000000000 <? 0)%Z with false. change (1000000000 <? 2000000000)%Z with true. cbv iota. unfold add_measurement at 1. cbn [ri_time reading ri_a ri_w].
  change (2000000000 - 1000000000 <=? 0)%Z with false. cbv iota. cbn [rbind fst snd]. unfold on_imu at 1. cbn [lv_pim lv_buf lv_state lv_bias lv_last rbind fst snd received]. unfold add_measurement. change (ri_time (fe_last w) - 2000000000 <=? 0)%Z with false. cbv iota. cbn [rbind].
  rewrite F. cbn [rbind]. rewrite Hb. cbn [rbind fst snd]. eexists _, _. reflexivity.
Qed.
(* the state is carried on with the readings that came after it, wherever they were received *)
Example live_example : exists b s out p, load no_tf fe_cfg = Ok b /\ fe_live b (live0 toy) (fe_run qI (1, 0, 0)%R v0 v0 ++ [EImu (fe_last v0)]) = Ok (s, out) /\ lv_pim s = Some p /\ total p = 2.
Proof.
  destruct fe_loads as [b H]. destruct (fe_runs b qI (1, 0, 0)%R v0 v0 H) as (s & out & E). pose proof (live_state no_tf b "map" toy toy_new toy_add toy_predict None _ s out (fe_ordered _ _ _ _) E) as L.
  change (latest _) with (Some (o_state 1000000000 qI (1, 0, 0)%R, mkBias v0 v0)) in L. cbv beta iota in L. destruct L as (_ & _ & p & Ep & m & p0 & _ & [= <-] & Eq). exists b, s, out, p. split; [exact H|]. split; [exact E|]. split; [exact Ep|].
  rewrite Eq. cbn. lra.
Qed.
(* a bias of one radian per second about the vertical: a body at rest is reported turning *)
Theorem live_rate_refuted : exists cfg b T l m s out o bi rate o1 msg, load no_tf cfg = Ok b /\ placed no_tf cfg "imu" T /\ in_order (imus (l ++ [EImu m])) /\ latest l = Some (o, bi) /\
  fe_live b (live0 toy) (l ++ [EImu m]) = Ok (s, out) /\ reads (ri_w m) rate (b_gyr bi) /\ rate = v0 /\ out = o1 ++ [MRate msg] /\ mtc_ang (oo_twist msg) <> mapply (lin T) rate.
Proof.
  destruct fe_loads as [b H]. set (g := (0, 0, 1) : vec3). destruct (fe_runs b qI v0 g g H) as (s & out & E).
  assert (Rd : reads (ri_w (fe_last g)) v0 (b_gyr (mkBias v0 g))) by (unfold reads, fe_last, reading, g; cbn; tup; ring).
  destruct (live_rate_iff no_tf no_tf fe_cfg b H no_tf_motions "map" toy toy_new toy_add toy_predict None (fe_run qI v0 g g) (fe_last g) s out (o_state 1000000000 qI v0) (mkBias v0 g) flipped v0 (fe_ordered _ _ _ _) eq_refl E fe_imu Rd) as (o1 & msg & Eo & _ & I).
  exists fe_cfg, b, flipped, (fe_run qI v0 g g), (fe_last g), s, out, (o_state 1000000000 qI v0), (mkBias v0 g), v0, o1, msg. split; [exact H|]. split; [exact fe_imu|]. split; [apply fe_ordered|]. split; [reflexivity|]. split; [exact E|]. split; [exact Rd|]. split; [reflexivity|]. split; [exact Eo|].
  intros K. apply I in K. unfold g, v0 in K. cbn in K. injection K as K. lra.
Qed.
Lemma quarter_unit : qunit quarter.
Proof. unfold qunit, qdot, quarter. pose proof (sqrt_sqrt 2 ltac:(lra)). nra. Qed.
(* facing left and moving forward: the reported velocity points to the right of the body *)
Theorem live_velocity_refuted : exists cfg b l m s out o bi o1 msg v, load no_tf cfg = Ok b /\ in_order (imus (l ++ [EImu m])) /\ latest l = Some (o, bi) /\
  fe_live b (live0 toy) (l ++ [EImu m]) = Ok (s, out) /\ out = o1 ++ [MRate msg] /\ v = rt_lin (od_twist o) /\ (forall p, toy_predict p (world_state o) bi = mkNav (n_rot (world_state o)) (n_pos (toy_predict p (world_state o) bi)) v) /\
  mapply (lin (motion_of (mpc_pose (oo_pose msg)))) (mtc_lin (oo_twist msg)) <> v.
Proof.
  destruct fe_loads as [b H]. set (v := (0, 1, 0) : vec3). destruct (fe_runs b quarter v v0 v0 H) as (s & out & E).
  destruct (live_velocity_iff no_tf b "map" toy toy_new toy_add toy_predict None (fe_run quarter v v0 v0) (fe_last v0) s out (o_state 1000000000 quarter v) (mkBias v0 v0) (fe_ordered _ _ _ _) eq_refl E) as (o1 & msg & p & Eo & _ & I).
  exists fe_cfg, b, (fe_run quarter v v0 v0), (fe_last v0), s, out, (o_state 1000000000 quarter v), (mkBias v0 v0), o1, msg, v. split; [exact H|]. split; [apply fe_ordered|]. split; [reflexivity|]. split; [exact E|]. split; [exact Eo|]. split; [reflexivity|]. split; [intros p'; reflexivity|].
  cbv zeta in I. assert (Pr : proper (n_rot (toy_predict p (world_state (o_state 1000000000 quarter v)) (mkBias v0 v0)))) by (exact (qmat_proper quarter quarter_unit)). intros K. apply (proj1 (I Pr)) in K. cbn [toy_predict n_rot n_vel world_state o_state od_pose od_twist rp_ori rt_lin] in K.
  unfold v, quarter, qmat, mapply, vdot in K. injection K as K1 K2 K3. pose proof (sqrt_sqrt 2 ltac:(lra)). nra.
Qed.

(* ---- pose of base_link ---- *)
Theorem base_link_pose_refuted : exists cfg b T o tf p, load no_tf cfg = Ok b /\ placed no_tf cfg "base_link" T /\ qunit (rp_ori (od_pose o)) /\ base_link_messages no_tf b o = Ok [MTf tf; MPose p] /\
  motion_of (FoModel.tf_pose tf) = on_body (odo_iso o) T /\ motion_of (mpc_pose (po_pose p)) <> motion_of (FoModel.tf_pose tf).
Proof.
  destruct fe_loads as [b H]. set (o := o_state 0 qI v0). assert (U : qunit (rp_ori (od_pose o))) by apply qunit_I.
  destruct (base_link_sent no_tf no_tf fe_cfg b H no_tf_motions o ahead fe_base_link U) as (id & tf & p & _ & E & _ & _ & _ & M & _).
  exists fe_cfg, b, ahead, o, tf, p. split; [exact H|]. split; [exact fe_base_link|]. split; [exact U|]. split; [exact E|]. split; [exact M|]. rewrite M. intros K.
  apply (base_link_pose_iff no_tf no_tf fe_cfg b H no_tf_motions o ahead p tf fe_base_link U E) in K. apply (f_equal (fun i => fst (fst (tr i)))) in K. cbn in K. lra.
Qed.

(* ---- first state ---- *)
Definition defaults : CfgModel.params := fun _ => None.
Definition quarter_turn : quat := (3 / 5, 0, 0, 4 / 5)%R.
Lemma quarter_turn_unit : qunit quarter_turn. Proof. unfold qunit, qdot, quarter_turn. field. Qed.
(* an upside down imu that knows north, in a frame with z down, without rotation of its own: the body is level *)
Example first_example : exists b q, load no_tf fe_cfg = Ok b /\ body_frame_orientation no_tf b defaults qI = Ok q /\ forall v, mapply (qmat q) v = v.
Proof.
  destruct fe_loads as [b H]. destruct (first_orientation no_tf no_tf fe_cfg b H no_tf_motions defaults flipped qI fe_imu qunit_I) as (q & E & _ & A). exists b, q. split; [exact H|]. split; [exact E|]. intros v. rewrite A. change (String.eqb (CfgModel.p_str defaults "imu/reference_frame" "NED") "NED") with true. cbv iota.
  destruct v as [[x y] z]. unfold flipped, iinv, ned_to_nwu, qI, qmat, mapply, mT, vdot. cbn [lin]. tup; ring.
Qed.
(* the rate in the first state is in the axes of the imu *)
Theorem first_rate_refuted : exists cfg b T m p t tm f c, load no_tf cfg = Ok b /\ placed no_tf cfg "imu" T /\ qunit (i_ori m) /\ first_state no_tf b "map" defaults 0 m = Ok (tm, f, c, p, t) /\ t_ang t <> mapply (lin T) (i_w m).
Proof.
  destruct fe_loads as [b H]. set (m := mkImu qI (0, 0, 1) v0 m0 m0 m0).
  destruct (first_state_sent no_tf no_tf fe_cfg b H no_tf_motions "map" defaults flipped 0%Z m "body" fe_imu (or_introl qunit_I) fe_body) as (p & t & E & _ & _ & _ & W & _).
  exists fe_cfg, b, flipped, m, p, t, 0%Z, "map", "body". split; [exact H|]. split; [exact fe_imu|]. split; [apply qunit_I|]. split; [exact E|]. rewrite W. unfold m, flipped. cbn [i_w lin]. unfold qmat, mapply, vdot. intros K. injection K as K1 K2 K3. lra.
Qed.

(* ---- motion of the lidar: the body moves forward one metre and does not turn ---- *)
Definition go : nav := mkNav mI v0 v0.
Definition stop_ : nav := mkNav mI (1, 0, 0)%R v0.
Lemma go_proper : proper_nav go. Proof. apply proper_I. Qed.
Lemma quat_of_I : quat_of mI = qI.
Proof.
  unfold quat_of, mI. cbv beta iota zeta. destruct (Rlt_dec 0 (1 + 1 + 1)) as [_|N]; [|exfalso; lra]. replace (1 + 1 + 1 + 1) with (2 * 2) by ring. rewrite sqrt_square by lra. unfold qI. tup; field.
Qed.
Theorem skew_refuted : exists cfg b T s e k q, load no_tf cfg = Ok b /\ placed no_tf cfg "lidar" T /\ proper_nav s /\ proper_nav e /\ skew_transform no_tf b true true s e = Ok k /\
  k <> moved (on_body (nav_iso s) T) (on_body (nav_iso e) T) /\
  forall eps, 0 < eps -> deskewed eps k 1 0 (iapp (iinv (on_body (nav_iso s) T)) q) <> iapp (iinv (on_body (nav_iso e) T)) q.
Proof.
  destruct fe_loads as [b H]. destruct (placed_lookup no_tf no_tf fe_cfg b H no_tf_motions "lidar" yawed 0%Z fe_lidar) as (F & _).
  set (k := mkIso mI (7 / 25, 24 / 25, 0)).
  assert (E : skew_transform no_tf b true true go stop_ = Ok k).
  { unfold skew_transform. rewrite F. cbn [rbind]. f_equal. unfold k, change_relative_transform_frame, change_relative_transform_frame2, yawed, go, stop_, nav_iso, imul, iinv. cbn [lin tr n_rot n_pos]. unfold qmat, mI, mmul, mT, mapply, vdot, vopp, vadd, v0. f_equal; tup; field. }
  exists fe_cfg, b, yawed, go, stop_, k, v0. split; [exact H|]. split; [exact fe_lidar|]. split; [exact go_proper|]. split; [exact go_proper|]. split; [exact E|]. split.
  - unfold k, moved, on_body, yawed, go, stop_, nav_iso, imul, iinv. cbn [lin tr n_rot n_pos]. unfold qmat, mI, mmul, mT, mapply, vdot, vopp, vadd, v0. intros K. injection K. intros. lra.
  - intros eps Pe K. unfold deskewed in K. replace (quat_of (lin k)) with qI in K by (symmetry; apply quat_of_I). rewrite pose_start, pose_end in K; try assumption; try (split; [apply qunit_I|auto]; fail).
    unfold k, on_body, yawed, go, stop_, nav_iso, imul, iinv, iid, iapp in K. cbn [lin tr n_rot n_pos] in K. unfold qI, qmat, mI, mmul, mT, mapply, vdot, vopp, vadd, v0 in K. injection K. intros. lra.
Qed.
Example guess_example : exists b, load no_tf fe_cfg = Ok b /\ guess_transform no_tf b go stop_ = Ok (mkIso mI (7 / 25, - (24 / 25), 0)).
Proof.
  destruct fe_loads as [b H]. exists b. split; [exact H|]. rewrite (guess_right no_tf no_tf fe_cfg b H no_tf_motions yawed go stop_ fe_lidar go_proper). f_equal.
  unfold moved, on_body, yawed, go, stop_, nav_iso, imul, iinv. cbn [lin tr n_rot n_pos]. unfold qmat, mI, mmul, mT, mapply, vdot, vopp, vadd, v0. f_equal; tup; field.
Qed.
