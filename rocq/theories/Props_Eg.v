(* Properties C20 (end to end), C46-C48, C50, C51, C73-C76: covariances, poses, messages. Proofs in CvProofs.v, EgPose.v, MsProofs.v, MsPose.v, RegEnd.v; cases in EgExamples.v. *)
From Coq Require Import ZArith Reals List.
From Verif Require Import Base GmModel BeModel BeSpec BeInv Mx Interp Geo EgModel CvModel CvProofs EgProofs EgPose MsModel MsProofs MsPose EgExamples RegEnd.

(* C20: from the publisher of the registration to the graph *)
Theorem C20_factor_created_iff_invalid :
  forall (bp : Z -> Z -> Z -> Z -> Z) (c : config) (ok : bool) (l : loc) (t tf : Z) (va ze : bool) (n : numerics) (g : igm) 
      (log : list gmop) (ev : list event) (k : Z),
    crts FBetweenPose (snd (fst (fst (prun bp (section c ok (MReg t tf va ze n) l) g log ev)))) = crts FBetweenPose log ++ [k] <->
    reg_ready bp g t n k /\ va = false /\ ze = false.
Proof. exact (@reg_factor_iff). Qed.
Theorem C20_valid_estimate_rejected_end_to_end :
  forall (bp : Z -> Z -> Z -> Z -> Z) (c : config) (ok : bool) (l : loc) (tf : Z) (ze : bool) (n : numerics) (g : igm) 
      (log : list gmop) (ev : list event) (lidar : iso) (body : nat) (transform : iso) (cov : cmat) (stamp : Z) (p0 : rpose),
    motion lidar ->
    motion transform ->
    (forall i j : nat, (i < 6)%nat -> (j < 6)%nat -> exists x : R, cov i j = Some x) ->
    symmetric 6 (num (cov6 cov)) ->
    pd 6 (num (cov6 cov)) ->
    exists (msg : mpcs) (p : rpose),
      publish_refined_transform lidar body transform cov stamp = Ok msg /\
      pcs_from_ros msg p0 = Ok (stamp, p) /\
      (exists (g' : igm) (log' : list gmop),
         prun bp (section c ok (MReg stamp tf (is_valid_covariance (cov6 (rp_cov p)) 0) ze n) l) g log ev = (g', log', ev, RThrow) /\
         crts FBetweenPose log' = crts FBetweenPose log).
Proof. exact (@valid_estimate_rejected). Qed.
Theorem C20_invalid_estimate_used_end_to_end :
  forall (bp : Z -> Z -> Z -> Z -> Z) (c : config) (ok : bool) (l : loc) (tf : Z) (n : numerics) (g : igm) (log : list gmop) 
      (ev : list event) (lidar : iso) (body : nat) (transform : iso) (cov : cmat) (stamp : Z) (p0 : rpose) (k : Z),
    motion lidar ->
    motion transform ->
    ~ ((forall i j : nat, (i < 6)%nat -> (j < 6)%nat -> exists x : R, cov i j = Some x) /\ symmetric 6 (num (cov6 cov)) /\ pd 6 (num (cov6 cov))) ->
    reg_ready bp g stamp n k ->
    exists (msg : mpcs) (p : rpose),
      publish_refined_transform lidar body transform cov stamp = Ok msg /\
      pcs_from_ros msg p0 = Ok (stamp, p) /\
      crts FBetweenPose (snd (fst (fst (prun bp (section c ok (MReg stamp tf (is_valid_covariance (cov6 (rp_cov p)) 0) false n) l) g log ev)))) =
      crts FBetweenPose log ++ [k].
Proof. exact (@invalid_estimate_used). Qed.

(* C46 *)
Theorem C46_entries :
  forall (m : dmat) (b : nat),
    d_rows m = d_cols m ->
    (0 < b)%nat ->
    (b < d_rows m)%nat ->
    exists m' : dmat,
      reorder true m (Z.of_nat b) = Ok m' /\
      d_rows m' = d_rows m /\
      d_cols m' = d_rows m /\
      (forall i j : nat, (i < d_rows m)%nat -> (j < d_rows m)%nat -> d_at m' i j = d_at m ((i + b) mod d_rows m) ((j + b) mod d_rows m)).
Proof. exact (@reorder_entries). Qed.
Theorem C46_refusals :
  forall (fixed : bool) (m : dmat) (b : Z), reorder fixed m b = Throw <-> b = 0%Z \/ d_rows m <> d_cols m \/ (Z.of_nat (d_rows m) <= b)%Z.
Proof. exact (@reorder_throws). Qed.
Theorem C46_restored :
  forall (m : dmat) (b : nat) (m' : dmat),
    (0 < b)%nat ->
    (b < d_rows m)%nat ->
    reorder true m (Z.of_nat b) = Ok m' ->
    exists m'' : dmat,
      reorder true m' (Z.of_nat (d_rows m - b)) = Ok m'' /\
      d_rows m'' = d_rows m /\ d_cols m'' = d_cols m /\ (forall i j : nat, (i < d_rows m)%nat -> (j < d_rows m)%nat -> d_at m'' i j = d_at m i j).
Proof. exact (@reorder_back). Qed.
Theorem C46_keeps :
  forall (m : dmat) (b : Z) (m' : dmat),
    reorder true m b = Ok m' ->
    (symmetric (d_rows m) (num m) -> symmetric (d_rows m) (num m')) /\
    (psd (d_rows m) (num m) -> psd (d_rows m) (num m')) /\
    (pd (d_rows m) (num m) -> pd (d_rows m) (num m')) /\ is_valid_covariance m' 0 = is_valid_covariance m 0.
Proof. exact (@reorder_keeps). Qed.
Theorem C46_dynamic_size :
  forall (m : dmat) (b : Z), d_rows m = d_cols m -> (0 < b < Z.of_nat (d_rows m))%Z -> reorder false m b = UB.
Proof. exact (@reorder_dynamic_ub). Qed.
Theorem C46_dynamic_refuted :
  exists m : dmat, is_valid_covariance m 0 = true /\ reorder false m 3 = UB.
Proof. exact (@reorder_dynamic_refuted). Qed.
Theorem C46_covariance_blocks :
  forall (p : vec3) (q : quat) (pc oc : mat3) (l a : vec3) (lc ac : mat3),
    two_blocks (p_cov (pose_of_blocks p q pc oc)) oc pc /\ two_blocks (t_cov (twist_of_blocks l a lc ac)) ac lc.
Proof. exact (@made_of_blocks). Qed.
Theorem C46_twist_blocks :
  forall (t : twist) (i j : nat),
    (i < 3)%nat ->
    (j < 3)%nat -> mget (angular_velocity_covariance t) i j = t_cov t i j /\ mget (linear_velocity_covariance t) i j = t_cov t (3 + i) (3 + j).
Proof. exact (@blocks_of_twist). Qed.
Theorem C46_pose_message :
  forall (p p0 : rpose) (msg : mposec),
    Datatypes.length (mpc_cov msg) = 36%nat ->
    exists (msg' : mposec) (p' : rpose),
      posec_to_ros msg p = Ok msg' /\
      mp_pos (mpc_pose msg') = rp_pos p /\
      mp_ori (mpc_pose msg') = rp_ori p /\ ros_cov (mpc_cov msg') (rp_cov p) /\ posec_from_ros msg' p0 = Ok p' /\ rpose_eq p' p.
Proof. exact (@posec_round_trip). Qed.
Theorem C46_pose_message_back :
  forall (msg msg0 : mposec) (p0 : rpose),
    Datatypes.length (mpc_cov msg) = 36%nat ->
    Datatypes.length (mpc_cov msg0) = 36%nat -> exists p : rpose, posec_from_ros msg p0 = Ok p /\ posec_to_ros msg0 p = Ok msg.
Proof. exact (@posec_back_trip). Qed.
Theorem C46_twist_message :
  forall (t t0 : rtwist) (msg : mtwistc),
    Datatypes.length (mtc_cov msg) = 36%nat ->
    exists (msg' : mtwistc) (t' : rtwist),
      twistc_to_ros msg t = Ok msg' /\
      mtc_lin msg' = rt_lin t /\ mtc_ang msg' = rt_ang t /\ ros_cov (mtc_cov msg') (rt_cov t) /\ twistc_from_ros msg' t0 = Ok t' /\ rtwist_eq t' t.
Proof. exact (@twistc_round_trip). Qed.
Theorem C46_odometry_message :
  forall (o o0 : rodom) (msg : modom),
    Datatypes.length (mpc_cov (mo_pose msg)) = 36%nat ->
    Datatypes.length (mtc_cov (mo_twist msg)) = 36%nat ->
    exists (msg' : modom) (o' : rodom),
      odom_to_ros msg o = Ok msg' /\
      h_stamp (mo_header msg') = ro_time o /\
      h_frame (mo_header msg') = ro_frame o /\
      mo_child msg' = ro_child o /\
      odom_from_ros msg' o0 = Ok o' /\
      ro_time o' = ro_time o /\
      ro_frame o' = ro_frame o /\ ro_child o' = ro_child o /\ rpose_eq (ro_pose o') (ro_pose o) /\ rtwist_eq (ro_twist o') (ro_twist o).
Proof. exact (@odom_round_trip). Qed.
Theorem C46_imu_message :
  forall (s s0 : rimu) (msg : mimu),
    Datatypes.length (mi_ocov msg) = 9%nat ->
    Datatypes.length (mi_wcov msg) = 9%nat ->
    Datatypes.length (mi_acov msg) = 9%nat ->
    exists (msg' : mimu) (s' : rimu),
      imu_to_ros msg s = Ok msg' /\
      holds 3 3 (mi_ocov msg') (ri_ocov s) /\
      holds 3 3 (mi_wcov msg') (ri_wcov s) /\
      holds 3 3 (mi_acov msg') (ri_acov s) /\
      mi_w msg' = ri_w s /\
      mi_a msg' = ri_a s /\
      mi_ori msg' = ri_ori s /\
      h_stamp (mi_header msg') = ri_time s /\
      h_frame (mi_header msg') = ri_frame s /\
      imu_from_ros msg' s0 = Ok s' /\
      ri_time s' = ri_time s /\
      ri_frame s' = ri_frame s /\
      ri_ori s' = ri_ori s /\
      ri_w s' = ri_w s /\
      ri_a s' = ri_a s /\ same 3 3 (ri_ocov s') (ri_ocov s) /\ same 3 3 (ri_wcov s') (ri_wcov s) /\ same 3 3 (ri_acov s') (ri_acov s).
Proof. exact (@imu_round_trip). Qed.
Theorem C46_transform_message :
  forall t : iso, motion t -> iso_from_ros (iso_to_ros t) = t.
Proof. exact (@iso_round_trip). Qed.
Theorem C46_transform_message_back :
  forall msg : mpose,
    qunit (mp_ori msg) -> mp_pos (iso_to_ros (iso_from_ros msg)) = mp_pos msg /\ qmat (mp_ori (iso_to_ros (iso_from_ros msg))) = qmat (mp_ori msg).
Proof. exact (@iso_back_trip). Qed.
Theorem C46_matrix4_message :
  forall m : mx,
    proper (block3 m 0 0) ->
    m 3%nat 0%nat = 0 -> m 3%nat 1%nat = 0 -> m 3%nat 2%nat = 0 -> m 3%nat 3%nat = 1 -> eqm 4 4 (mat4_from_ros (mat4_to_ros m)) m.
Proof. exact (@mat4_round_trip). Qed.

(* C47 *)
Theorem C47_fixed_array :
  forall (X : Type) (rows cols : nat) (m m0 : nat -> nat -> X) (arr : list X),
    Datatypes.length arr = (rows * cols)%nat ->
    exists (arr' : list X) (m' : nat -> nat -> X),
      array_to_ros rows cols arr m = Ok arr' /\ holds rows cols arr' m /\ array_from_ros rows cols arr' m0 = Ok m' /\ same rows cols m' m.
Proof. exact (@array_round_trip). Qed.
Theorem C47_fixed_array_back :
  forall (X : Type) (rows cols : nat) (m0 : nat -> nat -> X) (arr arr0 : list X),
    Datatypes.length arr = (rows * cols)%nat ->
    Datatypes.length arr0 = (rows * cols)%nat ->
    exists m' : nat -> nat -> X, array_from_ros rows cols arr m0 = Ok m' /\ array_to_ros rows cols arr0 m' = Ok arr.
Proof. exact (@array_back_trip). Qed.
Theorem C47_vector :
  forall (X : Type) (d : X) (rows cols : nat) (m m0 : nat -> nat -> X) (msg : list X),
    exists (arr : list X) (m' : nat -> nat -> X),
      vector_to_ros d rows cols msg m = Ok arr /\ holds rows cols arr m /\ vector_from_ros rows cols arr m0 = Ok m' /\ same rows cols m' m.
Proof. exact (@vector_round_trip). Qed.
Theorem C47_vector_size :
  forall (X : Type) (rows cols : nat) (msg : list X) (m : nat -> nat -> X),
    (vector_from_ros rows cols msg m = Throw <-> Datatypes.length msg <> (rows * cols)%nat) /\ vector_from_ros rows cols msg m <> UB.
Proof. exact (@vector_size). Qed.
Theorem C47_multi_array :
  forall (X : Type) (d : X) (rows cols : nat) (m m0 : nat -> nat -> X) (msg : multi X),
    small rows cols ->
    ma_dims msg = [] ->
    exists (msg' : multi X) (m' : nat -> nat -> X),
      multi_to_ros d rows cols msg m = Ok msg' /\
      ma_dims msg' = [(rows, Z.of_nat (rows * cols)); (cols, Z.of_nat cols)] /\
      ma_offset msg' = 0%Z /\ holds rows cols (ma_data msg') m /\ multi_from_ros rows cols msg' m0 = Ok m' /\ same rows cols m' m.
Proof. exact (@multi_round_trip). Qed.
Theorem C47_reuse_throws :
  forall (X : Type) (d : X) (rows cols rows' cols' : nat) (m m0 : nat -> nat -> X) (msg msg' : multi X),
    ma_dims msg <> [] -> multi_to_ros d rows cols msg m = Ok msg' -> multi_from_ros rows' cols' msg' m0 = Throw.
Proof. exact (@multi_reuse). Qed.
Theorem C47_reuse_refuted :
  exists msg1 msg2 : multi nat,
      multi_to_ros 0%nat 2 3 fresh m23 = Ok msg1 /\
      multi_to_ros 0%nat 2 3 msg1 m23 = Ok msg2 /\ multi_from_ros 2 3 msg2 (fun _ _ : nat => 0%nat) = Throw.
Proof. exact (@multi_reuse_refuted). Qed.
Theorem C47_read_outcomes :
  forall (X : Type) (rows cols : nat) (msg : multi X) (m0 : nat -> nat -> X),
    (multi_from_ros rows cols msg m0 = Throw <-> ~ (exists t0 t1 : Z, ma_dims msg = [(rows, t0); (cols, t1)])) /\
    (multi_from_ros rows cols msg m0 = UB <->
     (exists t0 t1 : Z,
        ma_dims msg = [(rows, t0); (cols, t1)] /\
        (exists r c : nat,
           (r < rows)%nat /\
           (c < cols)%nat /\ (Z.of_nat (Datatypes.length (ma_data msg)) <= (ma_offset msg + t1 * Z.of_nat r + Z.of_nat c) mod 4294967296)%Z))).
Proof. exact (@multi_read_outcomes). Qed.
Theorem C47_short_message_refuted :
  exists msg : multi nat, multi_from_ros 2 3 msg (fun _ _ : nat => 0%nat) = UB /\ ma_dims msg = [(2%nat, 6%Z); (3%nat, 3%Z)].
Proof. exact (@multi_short_refuted). Qed.
Theorem C47_statistics :
  forall (X : Type) (d : X) (n : nat) (m m0 : nat -> nat -> X) (msg : statcov X),
    exists (msg' : statcov X) (m' : nat -> nat -> X),
      stat_to_ros d n n msg m = Ok msg' /\
      sc_dim msg' = n /\ holds n n (sc_matrix msg') m /\ stat_from_ros msg' m0 = Ok (n, n, m') /\ same n n m' m.
Proof. exact (@stat_round_trip). Qed.
Theorem C47_statistics_refusals :
  forall (X : Type) (d : X) (rows cols : nat) (msg : statcov X) (m : nat -> nat -> X),
    (stat_to_ros d rows cols msg m = Throw <-> rows <> cols) /\
    (stat_from_ros msg m = Throw <-> Datatypes.length (sc_matrix msg) <> (sc_dim msg * sc_dim msg)%nat) /\ stat_from_ros msg m <> UB.
Proof. exact (@stat_refuses). Qed.
Theorem C47_parameter :
  forall (X : Type) (v : list X) (m : nat -> nat -> X),
    (matrix3d_from_param v m = Throw <-> (Datatypes.length v < 9)%nat) /\
    ((9 <= Datatypes.length v)%nat ->
     exists m' : nat -> nat -> X,
       matrix3d_from_param v m = Ok m' /\ (forall r c : nat, (r < 3)%nat -> (c < 3)%nat -> nth_error v (3 * r + c) = Some (m' r c))).
Proof. exact (@param_matrix). Qed.

(* C48 *)
Theorem C48_transform :
  forall (p : pose) (t : iso),
    pose_ok p -> motion t -> pose_transform (apply_transform p t) = imul (pose_transform p) t /\ pose_ok (apply_transform p t).
Proof. exact (@apply_is_product). Qed.
Theorem C48_two_steps :
  forall (p : pose) (a b : iso),
    pose_ok p -> motion a -> motion b -> pose_eq (apply_transform (apply_transform p a) b) (apply_transform p (imul a b)).
Proof. exact (@apply_apply). Qed.
Theorem C48_identity :
  forall p : pose, pose_ok p -> pose_eq (apply_transform p iid) p.
Proof. exact (@apply_id). Qed.
Theorem C48_inverse :
  forall (p : pose) (a : iso), pose_ok p -> motion a -> pose_eq (apply_transform (apply_transform p a) (iinv a)) p.
Proof. exact (@apply_inverse). Qed.
Theorem C48_keeps :
  forall (p : pose) (t : iso),
    (symmetric 6 (p_cov p) -> symmetric 6 (p_cov (apply_transform p t))) /\
    (psd 6 (p_cov p) -> psd 6 (p_cov (apply_transform p t))) /\ (motion t -> pd 6 (p_cov p) -> pd 6 (p_cov (apply_transform p t))).
Proof. exact (@apply_keeps). Qed.
Theorem C48_second_covariance_ignored :
  forall p t t' : pose, p_pos t = p_pos t' -> p_ori t = p_ori t' -> apply_pose p t = apply_pose p t'.
Proof. exact (@apply_pose_ignores). Qed.
Theorem C48_odometry :
  forall (o : odom) (t : pose) (time : Z),
    pose_ok (o_pose o) ->
    pose_ok t ->
    pose_transform (o_pose (apply_odometry o t time)) = imul (pose_transform (o_pose o)) (pose_transform t) /\
    o_twist (apply_odometry o t time) = o_twist o /\
    o_time (apply_odometry o t time) = time /\
    o_frame (apply_odometry o t time) = o_frame o /\ o_child (apply_odometry o t time) = o_child o /\ pose_ok (o_pose (apply_odometry o t time)).
Proof. exact (@apply_odometry_spec). Qed.

(* C50 *)
Theorem C50_skew :
  forall v w : vec3, mapply (skew v) w = vcross v w /\ mT (skew v) = mopp (skew v).
Proof. exact (@skew_spec). Qed.
Theorem C50_inverse :
  forall v : vec3, from_skew_symmetric (skew v) = Ok v.
Proof. exact (@from_skew_inverts). Qed.
Theorem C50_throws_iff :
  forall m : mat3, from_skew_symmetric m = Throw <-> (exists i : nat, (i < 3)%nat /\ 0 < mget m i i).
Proof. exact (@from_skew_throws_iff). Qed.
Theorem C50_refuted :
  exists (m : mat3) (v : vec3), from_skew_symmetric m = Ok v /\ mT m <> mopp m.
Proof. exact (@from_skew_refuted). Qed.

(* C51 *)
Theorem C51_radius_and_elevation :
  forall (x y z : R) (p : vec3),
    cartesian_to_polar x y z = Ok p -> let '(r, _, e) := p in r = sqrt (x * x + y * y + z * z) /\ z = r * cos e /\ 0 <= e <= PI.
Proof. exact (@polar_radius_elevation). Qed.
Theorem C51_outcomes :
  forall x y z : R, (cartesian_to_polar x y z = Throw <-> x = 0 /\ y = 0) /\ (cartesian_to_polar x y z = UB <-> x * x + y * y < Rabs x).
Proof. exact (@polar_outcomes). Qed.
Theorem C51_azimuth_right_iff :
  forall (x y z : R) (p : vec3), cartesian_to_polar x y z = Ok p -> polar_of x y z p <-> x * x + y * y = 1 \/ x = 0.
Proof. exact (@polar_right_iff). Qed.
Theorem C51_refuted :
  (exists p : vec3, cartesian_to_polar 1 1 0 = Ok p /\ ~ polar_of 1 1 0 p) /\ cartesian_to_polar (1 / 2) 0 0 = UB.
Proof. exact (@polar_refuted). Qed.

(* C73 *)
Theorem C73_valid_iff :
  forall m : dmat,
    is_valid_covariance m 0 = true <->
    d_rows m = d_cols m /\
    (forall i j : nat, (i < d_rows m)%nat -> (j < d_cols m)%nat -> exists x : R, d_at m i j = Some x) /\
    symmetric (d_rows m) (num m) /\ pd (d_rows m) (num m).
Proof. exact (@valid_covariance_default). Qed.
Theorem C73_with_tolerance :
  forall (m : dmat) (p : R),
    is_valid_covariance m p = true <->
    d_rows m = d_cols m /\
    (forall i j : nat, (i < d_rows m)%nat -> (j < d_cols m)%nat -> exists x : R, d_at m i j = Some x) /\
    pd (d_rows m) (mirror (num m)) /\ (forall i j : nat, (i < d_rows m)%nat -> (j < d_rows m)%nat -> i <> j -> Rabs (num m i j - num m j i) <= p).
Proof. exact (@valid_covariance_iff). Qed.
Theorem C73_tolerance_refuted :
  exists m : dmat, is_valid_covariance m 3 = true /\ ~ pd 2 (num m).
Proof. exact (@tolerance_refuted). Qed.
Theorem C73_diagonals :
  forall (A : mx) (n : nat) (b : bool), non_zero_diagonals A n = Ok b -> b = true <-> (forall i : nat, (i < n)%nat -> 0 < A i i).
Proof. exact (@non_zero_diagonals_spec). Qed.
Theorem C73_valid_has_diagonals :
  forall (m : dmat) (p : R) (n : nat), is_valid_covariance m p = true -> d_rows m = S n -> non_zero_diagonals (num m) (d_rows m) = Ok true.
Proof. exact (@valid_has_diagonals). Qed.

(* C74 *)
Theorem C74_independent :
  forall (prev rel : mx) (t : iso), eqm 6 6 (compose_transform_covariance prev rel t zero6) (addm (change_covariance_frame prev (iinv t)) rel).
Proof. exact (@compose_no_cross). Qed.
Theorem C74_three_steps :
  forall (p c1 : mx) (t1 : iso) (c2 : mx) (t2 : iso),
    motion t1 ->
    motion t2 ->
    eqm 6 6 (compose_transform_covariance (compose_transform_covariance p c1 t1 zero6) c2 t2 zero6)
      (compose_transform_covariance p (compose_transform_covariance c1 c2 t2 zero6) (imul t1 t2) zero6).
Proof. exact (@compose_assoc). Qed.
Theorem C74_symmetric :
  forall (prev rel : mx) (t : iso) (cross : mx),
    symmetric 12 (joint prev rel cross) -> symmetric 6 (compose_transform_covariance prev rel t cross).
Proof. exact (@compose_sym). Qed.
Theorem C74_semidefinite :
  forall (prev rel : mx) (t : iso) (cross : mx), psd 12 (joint prev rel cross) -> psd 6 (compose_transform_covariance prev rel t cross).
Proof. exact (@compose_psd). Qed.
Theorem C74_relative :
  forall p q r : iso,
    rigid p ->
    rigid q ->
    imul p (relative_transform p q) = q /\
    relative_transform p p = iid /\
    imul (relative_transform p q) (relative_transform q r) = relative_transform p r /\ iinv (relative_transform p q) = relative_transform q p.
Proof. exact (@relative_laws). Qed.
Theorem C74_change_of_frame :
  forall pa pa' t : iso,
    rigid pa ->
    rigid t -> change_relative_transform_frame (relative_transform pa pa') t = relative_transform (imul pa (iinv t)) (imul pa' (iinv t)).
Proof. exact (@change_relative_spec). Qed.
Theorem C74_change_of_frame_laws :
  forall a b t u : iso,
    rigid t ->
    rigid u ->
    change_relative_transform_frame iid t = iid /\
    change_relative_transform_frame (imul a b) t = imul (change_relative_transform_frame a t) (change_relative_transform_frame b t) /\
    change_relative_transform_frame (change_relative_transform_frame a t) u = change_relative_transform_frame a (imul u t) /\
    change_relative_transform_frame (change_relative_transform_frame a t) (iinv t) = a.
Proof. exact (@change_relative_laws). Qed.
Theorem C74_point_covariance :
  forall c r s : mat3,
    rotate_point_covariance c mI = c /\
    rotate_point_covariance (rotate_point_covariance c s) r = rotate_point_covariance c (mmul r s) /\
    (orth r -> rotate_point_covariance (rotate_point_covariance c r) (mT r) = c) /\
    (mT c = c -> mT (rotate_point_covariance c r) = rotate_point_covariance c r) /\
    (forall v : vec3, vdot v (mapply (rotate_point_covariance c r) v) = vdot (mapply (mT r) v) (mapply c (mapply (mT r) v))).
Proof. exact (@rotate_point_laws). Qed.

(* C75 *)
Theorem C75_back :
  forall (s : imu) (q : quat), qunit (i_ori s) -> qunit q -> imu_eq (change_frame (change_frame s q (qconj q)) (qconj q) q) s.
Proof. exact (@change_frame_back). Qed.
Theorem C75_world :
  forall (s : imu) (q : quat),
    qunit (i_ori s) ->
    qunit q ->
    let s' := change_frame s q (qconj q) in
    mapply (qmat (i_ori s')) (i_w s') = mapply (qmat (i_ori s)) (i_w s) /\
    mapply (qmat (i_ori s')) (i_a s') = mapply (qmat (i_ori s)) (i_a s) /\
    mmul (mmul (qmat (i_ori s')) (i_wcov s')) (mT (qmat (i_ori s'))) = mmul (mmul (qmat (i_ori s)) (i_wcov s)) (mT (qmat (i_ori s))) /\
    mmul (mmul (qmat (i_ori s')) (i_acov s')) (mT (qmat (i_ori s'))) = mmul (mmul (qmat (i_ori s)) (i_acov s)) (mT (qmat (i_ori s))).
Proof. exact (@change_frame_world). Qed.
Theorem C75_orientation_covariance_refuted :
  exists (s : imu) (q : quat),
      qunit (i_ori s) /\
      qunit q /\
      i_ocov s = i_wcov s /\
      (let s' := change_frame s q (qconj q) in
       i_ocov s' <> i_wcov s' /\
       mmul (mmul (qmat (i_ori s')) (i_ocov s')) (mT (qmat (i_ori s'))) <> mmul (mmul (qmat (i_ori s)) (i_ocov s)) (mT (qmat (i_ori s)))).
Proof. exact (@imu_orientation_covariance_refuted). Qed.

(* C76 *)
Theorem C76_published_transform :
  forall (lidar : iso) (body : nat) (transform : iso) (cov : cmat) (stamp : Z) (p0 : rpose),
    motion lidar ->
    motion transform ->
    exists (msg : mpcs) (p : rpose),
      publish_refined_transform lidar body transform cov stamp = Ok msg /\
      h_frame (ms_header msg) = body /\
      pcs_from_ros msg p0 = Ok (stamp, p) /\
      to_transform (rp_pos p) (rp_ori p) = imul (imul lidar transform) (iinv lidar) /\
      qunit (rp_ori p) /\
      change_relative_transform_frame (to_transform (rp_pos p) (rp_ori p)) (iinv lidar) = transform /\
      (all_finite (cov6 cov) = true ->
       forall i j : nat, (i < 6)%nat -> (j < 6)%nat -> rp_cov p i j = Some (change_covariance_frame (num (cov6 cov)) lidar i j)) /\
      (all_finite (cov6 cov) = false -> same 6 6 (rp_cov p) cov) /\ is_valid_covariance (cov6 (rp_cov p)) 0 = is_valid_covariance (cov6 cov) 0.
Proof. exact (@publish_refined). Qed.

Print Assumptions C20_factor_created_iff_invalid.
Print Assumptions C20_valid_estimate_rejected_end_to_end.
Print Assumptions C20_invalid_estimate_used_end_to_end.
Print Assumptions C46_entries.
Print Assumptions C46_refusals.
Print Assumptions C46_restored.
Print Assumptions C46_keeps.
Print Assumptions C46_dynamic_size.
Print Assumptions C46_dynamic_refuted.
Print Assumptions C46_covariance_blocks.
Print Assumptions C46_twist_blocks.
Print Assumptions C46_pose_message.
Print Assumptions C46_pose_message_back.
Print Assumptions C46_twist_message.
Print Assumptions C46_odometry_message.
Print Assumptions C46_imu_message.
Print Assumptions C46_transform_message.
Print Assumptions C46_transform_message_back.
Print Assumptions C46_matrix4_message.
Print Assumptions C47_fixed_array.
Print Assumptions C47_fixed_array_back.
Print Assumptions C47_vector.
Print Assumptions C47_vector_size.
Print Assumptions C47_multi_array.
Print Assumptions C47_reuse_throws.
Print Assumptions C47_reuse_refuted.
Print Assumptions C47_read_outcomes.
Print Assumptions C47_short_message_refuted.
Print Assumptions C47_statistics.
Print Assumptions C47_statistics_refusals.
Print Assumptions C47_parameter.
Print Assumptions C48_transform.
Print Assumptions C48_two_steps.
Print Assumptions C48_identity.
Print Assumptions C48_inverse.
Print Assumptions C48_keeps.
Print Assumptions C48_second_covariance_ignored.
Print Assumptions C48_odometry.
Print Assumptions C50_skew.
Print Assumptions C50_inverse.
Print Assumptions C50_throws_iff.
Print Assumptions C50_refuted.
Print Assumptions C51_radius_and_elevation.
Print Assumptions C51_outcomes.
Print Assumptions C51_azimuth_right_iff.
Print Assumptions C51_refuted.
Print Assumptions C73_valid_iff.
Print Assumptions C73_with_tolerance.
Print Assumptions C73_tolerance_refuted.
Print Assumptions C73_diagonals.
Print Assumptions C73_valid_has_diagonals.
Print Assumptions C74_independent.
Print Assumptions C74_three_steps.
Print Assumptions C74_symmetric.
Print Assumptions C74_semidefinite.
Print Assumptions C74_relative.
Print Assumptions C74_change_of_frame.
Print Assumptions C74_change_of_frame_laws.
Print Assumptions C74_point_covariance.
Print Assumptions C75_back.
Print Assumptions C75_world.
Print Assumptions C75_orientation_covariance_refuted.
Print Assumptions C76_published_transform.
