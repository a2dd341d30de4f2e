(* What the messages of the front end say: pose of base_link, velocities, first state, motion of the lidar. *)
From Coq Require Import ZArith QArith Lia Reals Qreals Lra List Bool String.
From Verif Require Import Base Mx Interp Geo EgModel EgProofs CvModel MsModel MsPose MsProofs NvModel NvSpec BfModel BfSpec BfProofs BfTheorems BfLaws PcGeom PcGeomProofs FoModel FoSpec FoLive.
From Verif Require CfgModel.
Import ListNotations.
Open Scope R_scope.

Section Front.
Variables look look0 : string -> string -> Z -> res iso.
Variable cfg : xv.
Variable b : frames.
Hypothesis Hload : load look0 cfg = Ok b.
Hypothesis Htf : tf_motions look0.
Variable map_frame : string.

Lemma placed_lookup f T time : placed look0 cfg f T -> body_to_frame look b f time = Ok T /\ frame_to_body look b f time = Ok (iinv T) /\ motion T.
Proof.
  intros (body & root & E & S'). pose proof (stands_motion _ _ _ _ _ Htf S') as M.
  destruct (load_transforms look0 look cfg b Hload) as (body' & root' & E' & A & B & _). rewrite E in E'. injection E' as <- <-.
  destruct (load_names look0 cfg b Hload) as (body' & root' & E' & N). rewrite E in E'. injection E' as <- <-.
  assert (D : is_dynamic b f = Ok false).
  { apply (proj1 (proj2 (proj2 (proj2 (proj2 (proj2 (proj2 N)))))) f false). destruct S' as [|p f v t u Dc Dy _ _]; [left; auto|]. right. exists p, v. rewrite Dy. auto. }
  pose proof (proj2 (A f time T D) S') as X. split; [exact X|]. destruct (B f time D) as (t & B1 & B2). rewrite X in B1. injection B1 as <-. auto.
Qed.
Lemma named_lookup f id : named cfg f id -> frame_id b f = Ok id.
Proof.
  intros (body & root & E & H). destruct (load_names look0 cfg b Hload) as (body' & root' & E' & N). rewrite E in E'. injection E' as <- <-.
  apply (proj1 (proj2 (proj2 (proj2 (proj2 (proj2 N))))) f id). exact H.
Qed.
Lemma placed_named f T : placed look0 cfg f T -> exists id, named cfg f id.
Proof.
  intros (body & root & E & S'). destruct S' as [|p f v t u Dc _ _ _]; [exists (declared_id body root)|exists (declared_id f v)]; exists body, root; (split; [exact E|]); [left; auto|right; exists p, v; auto].
Qed.
Lemma body_lookup id : body_named cfg id -> body_frame_id b = Ok id.
Proof. intros (body & root & E & ->). destruct (load_names look0 cfg b Hload) as (body' & root' & E' & N). rewrite E in E'. injection E' as <- <-. exact (proj1 (proj2 N)). Qed.
Lemma body_placed T : placed look0 cfg (body_frame b) T -> T = iid.
Proof.
  intros H. destruct (placed_lookup _ _ 0%Z H) as (A & _). destruct (load_names look0 cfg b Hload) as (body & root & E & N).
  assert (H' : placed look0 cfg (body_frame b) iid) by (exists body, root; split; [exact E|]; rewrite (proj1 N); apply s_body).
  destruct (placed_lookup _ _ 0%Z H') as (A' & _). congruence.
Qed.

(* ---- pose of base_link ---- *)
Definition odo_iso (o : odo) : iso := to_transform (rp_pos (od_pose o)) (rp_ori (od_pose o)).
Theorem base_link_sent o T : placed look0 cfg "base_link" T -> qunit (rp_ori (od_pose o)) ->
  exists id tf p, named cfg "base_link" id /\ base_link_messages look b o = Ok [MTf tf; MPose p] /\
    tf_time tf = od_time o /\ tf_parent tf = od_frame o /\ tf_child tf = id /\ motion_of (tf_pose tf) = on_body (odo_iso o) T /\
    po_time p = od_time o /\ po_frame p = od_frame o /\ mpc_pose (po_pose p) = mkMP (rp_pos (od_pose o)) (rp_ori (od_pose o)) /\ ros_cov (mpc_cov (po_pose p)) (rp_cov (od_pose o)).
Proof.
  intros P U. destruct (placed_lookup _ _ (od_time o) P) as (A & _ & M). destruct (placed_named _ _ P) as [id N]. pose proof (named_lookup _ _ N) as I.
  assert (X : exists p, base_link_pose look b o = Ok p /\ motion_of p = on_body (odo_iso o) T).
  { unfold base_link_pose. destruct (String.eqb_spec (body_frame b) "base_link") as [E|E].
    - eexists. split; [reflexivity|]. rewrite <- E in P. apply body_placed in P. subst T. unfold on_body. rewrite imul_id_r. reflexivity.
    - rewrite A. cbn [rbind]. eexists. split; [reflexivity|]. unfold motion_of, apply_transform, pose_of_iso. cbn [mp_pos mp_ori p_pos p_ori]. unfold pose_transform. cbn [p_pos p_ori].
      fold (odo_iso o). unfold on_body. assert (MM : motion (imul (odo_iso o) T)) by (apply motion_mul; [apply qmat_proper; exact U|exact M]).
      destruct (quat_of_spec _ MM) as [Q _]. unfold to_transform. rewrite Q. destruct (imul (odo_iso o) T); reflexivity. }
  destruct X as (p & X1 & X2). destruct (posec_round_trip (od_pose o) (od_pose o) (mkMPC (mkMP v0 (0, 0, 0, 0)) (zeros 36)) eq_refl) as (c & _ & C1 & C2 & C3 & C4 & _).
  unfold base_link_messages. rewrite X1, I, C1. eexists id, _, _. split; [exact N|]. split; [reflexivity|]. cbn [tf_time tf_parent FoModel.tf_child FoModel.tf_pose po_time po_frame po_pose]. do 3 (split; [reflexivity|]).
  split; [exact X2|]. split; [reflexivity|]. split; [reflexivity|]. split; [|exact C4]. destruct (mpc_pose c) as [x y]. cbn in C2, C3. congruence.
Qed.
(* the pose message is the pose of base_link only where base_link stands on the body frame *)
Theorem base_link_pose_iff o T p tf : placed look0 cfg "base_link" T -> qunit (rp_ori (od_pose o)) -> base_link_messages look b o = Ok [MTf tf; MPose p] ->
  (motion_of (mpc_pose (po_pose p)) = on_body (odo_iso o) T <-> T = iid).
Proof.
  intros P U H. destruct (base_link_sent o T P U) as (id & tf' & p' & _ & H' & _ & _ & _ & _ & _ & _ & E & _). rewrite H in H'. injection H' as <- <-. rewrite E. unfold motion_of. cbn [mp_pos mp_ori]. fold (odo_iso o). unfold on_body.
  assert (G : rigid (odo_iso o)) by (apply rigid_to_transform; exact U). split.
  - intros K. assert (K' : imul (iinv (odo_iso o)) (odo_iso o) = imul (iinv (odo_iso o)) (imul (odo_iso o) T)) by (rewrite <- K; reflexivity). rewrite imul_assoc, imul_inv_l, imul_id_l in K' by exact G. congruence.
  - intros ->. symmetry. apply imul_id_r.
Qed.
(* a failing lookup is reported only *)
Theorem base_link_never_throws o : (forall a c t, look a c t <> UB) -> exists l, base_link_messages look b o = Ok l.
Proof.
  intros NU. unfold base_link_messages, base_link_pose. destruct (posec_round_trip (od_pose o) (od_pose o) (mkMPC (mkMP v0 (0, 0, 0, 0)) (zeros 36)) eq_refl) as (c & _ & -> & _).
  assert (I : frame_id b "base_link" <> UB) by (unfold frame_id, at_; destruct (sget _ _); discriminate).
  assert (Tb : body_to_frame look b "base_link" (od_time o) <> UB).
  { unfold body_to_frame, is_dynamic, at_. destruct (sget _ (bf_dyn b)) as [[]|]; cbn [rbind]; [|destruct (sget _ _); discriminate|discriminate]. unfold lookup_transform, at_. destruct (sget _ _); cbn [rbind]; [|discriminate]. destruct (sget _ _); cbn [rbind]; [apply NU|discriminate]. }
  destruct (String.eqb _ _).
  - destruct (frame_id b "base_link"); [eexists; reflexivity|eexists; reflexivity|congruence].
  - destruct (body_to_frame look b "base_link" (od_time o)); cbn [rbind]; [|eexists; reflexivity|congruence]. destruct (frame_id b "base_link"); [eexists; reflexivity|eexists; reflexivity|congruence].
Qed.

(* ---- velocities of the live odometry ---- *)
Theorem rate_bias_iff T reading rate g : motion T -> reads reading rate g -> (mapply (lin T) (vadd reading g) = mapply (lin T) rate <-> g = v0).
Proof.
  intros [O _] ->. split.
  - intros H. assert (K : vadd (vadd rate g) g = rate).
    { assert (X : forall v w, mapply (lin T) v = mapply (lin T) w -> v = w).
      { intros v w E. rewrite <- (mapply_I v), <- (mapply_I w). destruct O as [O1 O2]. assert (OO : mmul (mT (lin T)) (lin T) = mI) by (first [exact O1|exact O2]). rewrite <- OO, !mapply_mul, E. reflexivity. }
      apply X, H. }
    destruct rate as [[r1 r2] r3], g as [[g1 g2] g3]. unfold vadd in K. injection K as K1 K2 K3. unfold v0. tup; lra.
  - intros ->. rewrite !vadd_0_r. reflexivity.
Qed.

Section Live.
Variable pim : Type.
Variable pim_new : cmat -> cmat -> bias -> res pim.
Variable add : pim -> vec3 -> vec3 -> R -> pim.
Variable predict : pim -> nav -> bias -> nav.
Variable overwrite : option (cmat * cmat).
(* the gyroscope reads the rate plus its bias, and the bias is the one the back end found *)
Theorem live_rate_iff l m s out o bi T rate : in_order (imus (l ++ [EImu m])) -> latest l = Some (o, bi) ->
  lrun look b map_frame pim pim_new add predict overwrite (live0 pim) (l ++ [EImu m]) = Ok (s, out) -> placed look0 cfg "imu" T -> reads (ri_w m) rate (b_gyr bi) ->
  exists o1 msg, out = o1 ++ [MRate msg] /\ oo_time msg = ri_time m /\ (mtc_ang (oo_twist msg) = mapply (lin T) rate <-> b_gyr bi = v0).
Proof.
  intros O N H P Rd. destruct (placed_lookup _ _ 0%Z P) as (F & _ & M). destruct (live_message look b map_frame pim pim_new add predict overwrite l m s out o bi O N H) as (s1 & o1 & p & t & child & msg & _ & E & _ & Ft & _ & Et & _ & _ & _ & _ & W & _).
  rewrite F in Ft. injection Ft as <-. exists o1, msg. split; [exact E|]. split; [exact Et|]. rewrite W. apply rate_bias_iff; assumption.
Qed.
(* the linear velocity is that of the body in its own axes only where both agree *)
Theorem live_velocity_iff l m s out o bi : in_order (imus (l ++ [EImu m])) -> latest l = Some (o, bi) ->
  lrun look b map_frame pim pim_new add predict overwrite (live0 pim) (l ++ [EImu m]) = Ok (s, out) ->
  exists o1 msg p, out = o1 ++ [MRate msg] /\ integrates pim pim_new add (map (received overwrite) (imus (l ++ [EImu m]))) o bi p /\ let st := predict p (world_state o) bi in
    (proper (n_rot st) -> (mapply (lin (motion_of (mpc_pose (oo_pose msg)))) (mtc_lin (oo_twist msg)) = n_vel st <-> mapply (n_rot st) (n_vel st) = n_vel st)).
Proof.
  intros O N H. destruct (live_message look b map_frame pim pim_new add predict overwrite l m s out o bi O N H) as (s1 & o1 & p & t & child & msg & _ & E & I & _ & _ & _ & _ & _ & Pp & V & _).
  exists o1, msg, p. split; [exact E|]. split; [exact I|]. intros st Pr. rewrite Pp, V. unfold motion_of, to_transform. cbn [mp_pos mp_ori lin]. fold st. rewrite (proj1 (quat_of_spec _ Pr)). tauto.
Qed.
End Live.

(* ---- first state ---- *)
Lemma half_turn : half_turn_x = (0, 1, 0, 0). Proof. unfold half_turn_x. rewrite cos_PI2, sin_PI2. tup; ring. Qed.
Theorem first_orientation P T ori : placed look0 cfg "imu" T -> qunit ori ->
  exists q, body_frame_orientation look b P ori = Ok q /\ qunit q /\
    forall v, mapply (qmat q) v = (if String.eqb (CfgModel.p_str P "imu/reference_frame" "NED") "NED" then ned_to_nwu else fun w => w) (mapply (qmat ori) (mapply (lin (iinv T)) v)).
Proof.
  intros H U. destruct (placed_lookup _ _ 0%Z H) as (_ & F & M). unfold body_frame_orientation. destruct (qzero_dec ori) as [->|_]; [exfalso; unfold qunit, qdot in U; lra|]. rewrite F. cbn [rbind].
  destruct (quat_of_spec (lin (iinv T)) (motion_inv _ M)) as [Q1 Q2].
  assert (E : qmat (qmul ori (quat_of (lin (iinv T)))) = mmul (qmat ori) (lin (iinv T))) by (rewrite qmat_mul by assumption; rewrite Q1; reflexivity).
  assert (U' : qunit (qmul ori (quat_of (lin (iinv T))))) by (apply qunit_mul; assumption).
  destruct (String.eqb _ "NED"); eexists; (split; [reflexivity|]).
  - assert (H1 : qunit half_turn_x) by (rewrite half_turn; unfold qunit, qdot; ring). split; [apply qunit_mul; assumption|]. intros v. rewrite qmat_mul, E, !mapply_mul by assumption.
    generalize (mapply (qmat ori) (mapply (lin (iinv T)) v)). intros [[x y] z]. rewrite half_turn. unfold qmat, mapply, vdot, ned_to_nwu. tup; ring.
  - split; [exact U'|]. intros v. rewrite E, mapply_mul. reflexivity.
Qed.
Theorem first_orientation_none P : body_frame_orientation look b P (0, 0, 0, 0) = Ok qI.
Proof. unfold body_frame_orientation. destruct (qzero_dec _) as [_|N]; [reflexivity|congruence]. Qed.
Definition diagonal (s : R) (m : mat3) : Prop := m = ((s * s, 0, 0), (0, s * s, 0), (0, 0, s * s)).
Theorem first_state_sent P T time m child : placed look0 cfg "imu" T -> qunit (i_ori m) \/ i_ori m = (0, 0, 0, 0) -> body_named cfg child ->
  exists p t, first_state look b map_frame P time m = Ok (time, map_frame, child, p, t) /\
    p_pos p = (real_param P "pose/position/x" 0, real_param P "pose/position/y" 0, real_param P "pose/position/z" 0) /\
    body_frame_orientation look b P (i_ori m) = Ok (p_ori p) /\
    t_lin t = (real_param P "velocity/linear/x" 0, real_param P "velocity/linear/y" 0, real_param P "velocity/linear/z" 0) /\ t_ang t = i_w m /\
    (exists a c, p_cov p = blocks a m0 m0 c /\ diagonal (real_param P "prior_noise/rotation" (1 # 1000)) a /\ diagonal (real_param P "prior_noise/position" (1 # 1000)) c) /\
    (exists c, t_cov t = blocks (i_wcov m) m0 m0 c /\ diagonal (real_param P "prior_noise/linear_velocity" (1 # 1000)) c).
Proof.
  intros H U N. assert (X : exists q, body_frame_orientation look b P (i_ori m) = Ok q).
  { destruct U as [U|U]; [destruct (first_orientation P T _ H U) as (q & E & _); eauto|]. rewrite U. exists qI. apply first_orientation_none. }
  destruct X as [q E]. unfold first_state. rewrite E, (body_lookup _ N). cbn [rbind]. eexists _, _. split; [reflexivity|]. cbn [pose_of_blocks p_pos p_ori p_cov twist_of_blocks t_lin t_ang t_cov].
  split; [reflexivity|]. split; [reflexivity|]. split; [reflexivity|]. split; [reflexivity|]. split; [eexists _, _|eexists]; (split; [reflexivity|]); [split|]; reflexivity.
Qed.

(* ---- the motion of the lidar ---- *)
Definition proper_nav (s : nav) : Prop := motion (nav_iso s).
Lemma lidar_truth T s e : motion T -> proper_nav s -> moved (on_body (nav_iso s) T) (on_body (nav_iso e) T) = imul (imul (iinv T) (moved (nav_iso s) (nav_iso e))) T.
Proof. intros M A. unfold moved, on_body. rewrite iinv_mul by (apply motion_rigid; assumption). rewrite !imul_assoc. reflexivity. Qed.
Theorem guess_right T before after : placed look0 cfg "lidar" T -> proper_nav before ->
  guess_transform look b before after = Ok (moved (on_body (nav_iso before) T) (on_body (nav_iso after) T)).
Proof.
  intros H A. destruct (placed_lookup _ _ 0%Z H) as (_ & F & M). unfold guess_transform. rewrite F. cbn [rbind]. f_equal. rewrite lidar_truth by assumption.
  unfold change_relative_transform_frame, change_relative_transform_frame2. rewrite iinv_inv by (apply motion_rigid; exact M). reflexivity.
Qed.
Theorem skew_iff T s e : placed look0 cfg "lidar" T -> proper_nav s ->
  exists k, skew_transform look b true true s e = Ok k /\
    (k = moved (on_body (nav_iso s) T) (on_body (nav_iso e) T) <-> let r := moved (nav_iso s) (nav_iso e) in imul (imul T T) r = imul r (imul T T)).
Proof.
  intros H A. destruct (placed_lookup _ _ 0%Z H) as (F & _ & M). unfold skew_transform. rewrite F. cbn [rbind]. eexists. split; [reflexivity|]. rewrite lidar_truth by assumption.
  fold (moved (nav_iso s) (nav_iso e)). set (r := moved (nav_iso s) (nav_iso e)). clearbody r. pose proof (motion_rigid _ M) as G.
  unfold change_relative_transform_frame, change_relative_transform_frame2. assert (E : forall k, mkIso (lin k) (tr k) = k) by (intros []; reflexivity). rewrite E. cbv zeta. split; intros K.
  - assert (K1 : imul (imul T (imul (imul T r) (iinv T))) T = imul (imul T (imul (imul (iinv T) r) T)) T) by (rewrite K; reflexivity).
    rewrite !imul_assoc in K1. rewrite <- (imul_assoc (imul (imul T T) r) (iinv T) T), imul_inv_l, imul_id_r in K1 by exact G. rewrite imul_inv_r, imul_id_l in K1 by exact G. rewrite imul_assoc. exact K1.
  - assert (K1 : imul (imul (iinv T) (imul (imul T T) r)) (iinv T) = imul (imul (iinv T) (imul r (imul T T))) (iinv T)) by (rewrite K; reflexivity).
    rewrite !imul_assoc in K1. rewrite imul_inv_l, imul_id_l in K1 by exact G. rewrite K1, <- !imul_assoc, imul_inv_r, imul_id_r by exact G. reflexivity.
Qed.
(* right where the lidar is not turned against the body and the body does not turn *)
Theorem skew_straight T s e : placed look0 cfg "lidar" T -> proper_nav s -> lin T = mI -> n_rot e = n_rot s ->
  skew_transform look b true true s e = Ok (moved (on_body (nav_iso s) T) (on_body (nav_iso e) T)).
Proof.
  intros H A TI E. destruct (skew_iff T s e H A) as (k & K & I). rewrite K. f_equal. apply I. cbv zeta. destruct T as [l t]. cbn [lin] in TI. subst l.
  unfold moved. destruct A as [[O1 O2] _]. unfold imul, iinv, nav_iso. cbn [lin tr] in *. rewrite E.
  assert (OO : mmul (mT (n_rot s)) (n_rot s) = mI) by (unfold nav_iso in O1, O2; cbn [lin] in O1, O2; first [exact O1|exact O2]). rewrite OO, !mmul_I_l, !mapply_I. f_equal. destruct t as [[t1 t2] t3]. generalize (vadd (mapply (mT (n_rot s)) (n_pos e)) (vopp (mapply (mT (n_rot s)) (n_pos s)))). intros [[x y] z]. unfold vadd. tup; ring.
Qed.
Theorem skew_switches T s e : placed look0 cfg "lidar" T -> exists k k1 k2 k3, skew_transform look b true true s e = Ok k /\
  skew_transform look b false true s e = Ok k1 /\ lin k1 = lin k /\ tr k1 = v0 /\ skew_transform look b true false s e = Ok k2 /\ lin k2 = mI /\ tr k2 = tr k /\ skew_transform look b false false s e = Ok k3 /\ k3 = iid.
Proof. intros H. destruct (placed_lookup _ _ 0%Z H) as (F & _). unfold skew_transform. rewrite F. cbn [rbind]. eexists _, _, _, _. repeat split. Qed.
End Front.

(* a lidar that moves by k over the sweep, evenly, sees a still point where deskewing says *)
Theorem still_point eps k L0 y x q : 0 < eps -> motion L0 -> proper (lin k) -> exact_rotation eps (quat_of (lin k)) ->
  let at_ z := imul L0 (pose_at eps (tr k) (quat_of (lin k)) z) in
  at_ 0 = L0 /\ at_ 1 = imul L0 k /\ deskewed eps k y x (iapp (iinv (at_ x)) q) = iapp (iinv (at_ y)) q.
Proof.
  intros E M P X at_. split; [unfold at_; rewrite pose_start by assumption; apply imul_id_r|]. split; [unfold at_; rewrite pose_end by assumption; rewrite (proj1 (quat_of_spec _ P)); destruct k; reflexivity|]. unfold deskewed, at_. set (py := pose_at eps (tr k) (quat_of (lin k)) y). set (px := pose_at eps (tr k) (quat_of (lin k)) x).
  assert (Gx : rigid px) by (apply pose_rigid; assumption). assert (Gy : rigid py) by (apply pose_rigid; assumption). pose proof (motion_rigid _ M) as G.
  rewrite !iinv_mul by assumption. rewrite <- iapp_mul. rewrite <- (imul_assoc (iinv py) px), (imul_assoc px), imul_inv_r, imul_id_l by assumption. reflexivity.
Qed.
