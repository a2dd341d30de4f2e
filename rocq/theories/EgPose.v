(* Poses with covariance: applying transforms, composing covariances, frame changes, IMU frames, skew and polar conversions. *)
From Coq Require Import ZArith Reals Lra Lia Psatz List.
From Verif Require Import Base Mx Interp Geo EgModel CvModel CvProofs EgProofs.
Open Scope R_scope.

Definition pose_ok (p : pose) : Prop := qunit (p_ori p).
Lemma pose_motion p : pose_ok p -> motion (pose_transform p). Proof. intros H. apply qmat_proper. exact H. Qed.
Lemma pose_eq_refl p : pose_eq p p. Proof. repeat split. Qed.
Lemma pose_eq_sym p q : pose_eq p q -> pose_eq q p. Proof. intros (A & B & C). split; [symmetry; exact A|]. split; [symmetry; exact B|]. apply eqm_sym. exact C. Qed.
Lemma pose_eq_trans p q r : pose_eq p q -> pose_eq q r -> pose_eq p r.
Proof. intros (A & B & C) (A' & B' & C'). split; [congruence|]. split; [congruence|]. eapply eqm_trans; eassumption. Qed.

(* applying a transform multiplies on the right *)
Theorem apply_is_product p t : pose_ok p -> motion t -> pose_transform (apply_transform p t) = imul (pose_transform p) t /\ pose_ok (apply_transform p t).
Proof.
  intros H M. destruct (quat_of_spec (lin (imul (pose_transform p) t))) as [E U]; [apply motion_mul; [apply pose_motion; exact H|exact M]|].
  split; [|exact U]. unfold apply_transform, pose_of_iso, pose_transform at 1, to_transform. cbn [p_pos p_ori]. rewrite E. destruct (imul (pose_transform p) t). reflexivity.
Qed.
Lemma pose_eq_iff p q : pose_eq p q <-> pose_transform p = pose_transform q /\ eqm 6 6 (p_cov p) (p_cov q).
Proof.
  unfold pose_eq, pose_transform, to_transform. split.
  - intros (A & B & C). split; [congruence|exact C].
  - intros [A C]. injection A as B A. split; [exact A|]. split; [exact B|exact C].
Qed.
Lemma apply_cov p t : p_cov (apply_transform p t) = change_covariance_frame (p_cov p) (iinv t). Proof. reflexivity. Qed.
Lemma change_cov_ext c c' t : eqm 6 6 c c' -> eqm 6 6 (change_covariance_frame c t) (change_covariance_frame c' t).
Proof. intros H. apply change_ext; [exact H|apply eqm_refl]. Qed.
Theorem apply_apply p a b : pose_ok p -> motion a -> motion b -> pose_eq (apply_transform (apply_transform p a) b) (apply_transform p (imul a b)).
Proof.
  intros H A B. apply pose_eq_iff. destruct (apply_is_product p a H A) as [E U]. split.
  - rewrite (proj1 (apply_is_product _ b U B)), E. rewrite (proj1 (apply_is_product p (imul a b) H (motion_mul _ _ A B))). symmetry. apply imul_assoc.
  - rewrite !apply_cov. rewrite iinv_mul by (apply motion_rigid; assumption). apply change_mul. apply motion_inv. exact B.
Qed.
Theorem apply_id p : pose_ok p -> pose_eq (apply_transform p iid) p.
Proof.
  intros H. apply pose_eq_iff. split; [rewrite (proj1 (apply_is_product p iid H motion_id)); apply imul_id_r|]. rewrite apply_cov.
  replace (iinv iid) with iid; [apply change_id|]. unfold iinv, iid. cbn [lin tr]. f_equal. vred; tup; ring.
Qed.
Theorem apply_inverse p a : pose_ok p -> motion a -> pose_eq (apply_transform (apply_transform p a) (iinv a)) p.
Proof.
  intros H A. eapply pose_eq_trans; [apply apply_apply; [exact H|exact A|apply motion_inv; exact A]|]. rewrite imul_inv_r by (apply motion_rigid; exact A). apply apply_id. exact H.
Qed.
Theorem apply_keeps p t : (symmetric 6 (p_cov p) -> symmetric 6 (p_cov (apply_transform p t))) /\ (psd 6 (p_cov p) -> psd 6 (p_cov (apply_transform p t))) /\
  (motion t -> pd 6 (p_cov p) -> pd 6 (p_cov (apply_transform p t))).
Proof. rewrite apply_cov. destruct (change_keeps (p_cov p) (iinv t)) as (A & B & C). split; [exact A|]. split; [exact B|]. intros M. apply C. apply motion_inv. exact M. Qed.
(* the second pose's own uncertainty plays no role *)
Theorem apply_pose_ignores p t t' : p_pos t = p_pos t' -> p_ori t = p_ori t' -> apply_pose p t = apply_pose p t'.
Proof. intros A B. unfold apply_pose, pose_transform. rewrite A, B. reflexivity. Qed.
Theorem apply_odometry_spec o t time : pose_ok (o_pose o) -> pose_ok t ->
  pose_transform (o_pose (apply_odometry o t time)) = imul (pose_transform (o_pose o)) (pose_transform t) /\
  o_twist (apply_odometry o t time) = o_twist o /\ o_time (apply_odometry o t time) = time /\
  o_frame (apply_odometry o t time) = o_frame o /\ o_child (apply_odometry o t time) = o_child o /\ pose_ok (o_pose (apply_odometry o t time)).
Proof.
  intros H T. destruct (apply_is_product (o_pose o) (pose_transform t) H (pose_motion _ T)) as [E U]. repeat split; assumption.
Qed.

(* composing uncertain transforms *)
Definition zero6 : mx := fun _ _ => 0.
Theorem compose_no_cross prev rel t : eqm 6 6 (compose_transform_covariance prev rel t zero6) (addm (change_covariance_frame prev (iinv t)) rel).
Proof.
  intros i j _ _. unfold compose_transform_covariance, change_covariance_frame, change_covariance_adj, addm. unfold zero6, mulm at 3 4, trm at 2 3.
  rewrite (sum_zero 6 (fun l => 0 * _)) by (intros; ring). rewrite (sum_zero 6 (fun l => _ * 0)) by (intros; ring). ring.
Qed.
Lemma change_add a b t : eqm 6 6 (change_covariance_frame (addm a b) t) (addm (change_covariance_frame a t) (change_covariance_frame b t)).
Proof.
  intros i j _ _. unfold change_covariance_frame, change_covariance_adj, addm. unfold mulm. rewrite <- sum_plus. apply sum_ext. intros l _.
  rewrite <- Rmult_plus_distr_r. f_equal. rewrite <- sum_plus. apply sum_ext. intros k _. ring.
Qed.
Lemma addm_ext a a' b b' : eqm 6 6 a a' -> eqm 6 6 b b' -> eqm 6 6 (addm a b) (addm a' b').
Proof. intros H K i j Li Lj. unfold addm. rewrite H, K by assumption. reflexivity. Qed.
(* along a chain of independent steps the grouping does not matter *)
Theorem compose_assoc p c1 t1 c2 t2 : motion t1 -> motion t2 ->
  eqm 6 6 (compose_transform_covariance (compose_transform_covariance p c1 t1 zero6) c2 t2 zero6)
          (compose_transform_covariance p (compose_transform_covariance c1 c2 t2 zero6) (imul t1 t2) zero6).
Proof.
  intros M1 M2. eapply eqm_trans; [apply compose_no_cross|]. apply eqm_sym. eapply eqm_trans; [apply compose_no_cross|].
  apply eqm_trans with (addm (change_covariance_frame p (imul (iinv t2) (iinv t1))) (addm (change_covariance_frame c1 (iinv t2)) c2)).
  - apply addm_ext; [rewrite iinv_mul by (apply motion_rigid; assumption); apply eqm_refl|apply compose_no_cross].
  - apply eqm_trans with (addm (addm (change_covariance_frame (change_covariance_frame p (iinv t1)) (iinv t2)) (change_covariance_frame c1 (iinv t2))) c2).
    + intros i j Li Lj. unfold addm. rewrite <- (change_mul p (iinv t2) (iinv t1)) by (try assumption; apply motion_inv; exact M2). ring.
    + apply addm_ext; [|apply eqm_refl]. eapply eqm_trans; [apply eqm_sym; apply change_add|]. apply change_cov_ext. apply eqm_sym. apply compose_no_cross.
Qed.
(* the joint covariance of (previous, relative); cross = cov(relative, previous) *)
Definition joint (prev rel cross : mx) : mx := fun i j =>
  if Nat.ltb i 6 then (if Nat.ltb j 6 then prev i j else cross (j - 6)%nat i) else (if Nat.ltb j 6 then cross (i - 6)%nat j else rel (i - 6)%nat (j - 6)%nat).
Theorem compose_sym prev rel t cross : symmetric 12 (joint prev rel cross) -> symmetric 6 (compose_transform_covariance prev rel t cross).
Proof.
  intros S. assert (SP : symmetric 6 prev) by (intros i j Li Lj; specialize (S i j ltac:(lia) ltac:(lia)); unfold joint in S; destruct (Nat.ltb_spec i 6), (Nat.ltb_spec j 6); try lia; exact S).
  assert (SR : symmetric 6 rel).
  { intros i j Li Lj. specialize (S (i + 6)%nat (j + 6)%nat ltac:(lia) ltac:(lia)). unfold joint in S. destruct (Nat.ltb_spec (i + 6) 6), (Nat.ltb_spec (j + 6) 6); try lia. rewrite !Nat.add_sub in S. exact S. }
  intros i j Li Lj. unfold compose_transform_covariance. set (adj := transform_adjoint (iinv t)). unfold addm.
  rewrite (congruence_sym 6 adj prev SP i j Li Lj). rewrite (SR i j Li Lj). unfold mulm at 3 4 7 8, trm at 2 3 5 6.
  rewrite (sum_ext 6 (fun l => cross j l * adj i l) (fun l => adj i l * cross j l)) by (intros; ring).
  rewrite (sum_ext 6 (fun l => adj j l * cross i l) (fun l => cross i l * adj j l)) by (intros; ring). ring.
Qed.
Lemma quad_joint prev rel cross adj x :
  quad 6 (addm (addm (addm (mulm 6 (mulm 6 adj prev) (trm adj)) rel) (mulm 6 cross (trm adj))) (mulm 6 adj (trm cross))) x =
  quad 12 (joint prev rel cross) (fun i => if Nat.ltb i 6 then mulv 6 (trm adj) x i else x (i - 6)%nat).
Proof.
  rewrite !quad_add, quad_congruence. set (u := mulv 6 (trm adj) x).
  assert (E1 : quad 6 (mulm 6 cross (trm adj)) x = sum 6 (fun i => x i * mulv 6 cross u i)).
  { unfold quad. apply sum_ext. intros i Li. rewrite mulv_mulm. reflexivity. }
  assert (E2 : quad 6 (mulm 6 adj (trm cross)) x = sum 6 (fun k => u k * mulv 6 (trm cross) x k)).
  { unfold quad. rewrite (sum_ext 6 _ (fun i => sum 6 (fun k => x i * adj i k * mulv 6 (trm cross) x k))). 2:{ intros i Li. rewrite mulv_mulm. unfold mulv at 1. rewrite <- sum_scale. apply sum_ext. intros; ring. }
    rewrite sum_swap. apply sum_ext. intros k Lk. rewrite (sum_scale_r 6 (mulv 6 (trm cross) x k) (fun i => x i * adj i k)). f_equal. unfold u, mulv, trm. apply sum_ext. intros; ring. }
  rewrite E1, E2. set (y := fun i : nat => if (i <? 6)%nat then u i else x (i - 6)%nat). unfold quad, mulv. change 12%nat with (6 + 6)%nat.
  assert (Y1 : forall i, (i < 6)%nat -> y i = u i) by (intros i Li; unfold y; destruct (Nat.ltb_spec i 6); [reflexivity|lia]).
  assert (Y2 : forall i, (i < 6)%nat -> y (6 + i)%nat = x i) by (intros i Li; unfold y; destruct (Nat.ltb_spec (6 + i) 6); [lia|]; f_equal; lia).
  rewrite (sum_add 6 6). rewrite (sum_ext 6 (fun i => y i * sum (6 + 6) (fun j => joint prev rel cross i j * y j)) (fun i => u i * sum 6 (fun j => prev i j * u j) + u i * sum 6 (fun j => trm cross i j * x j))).
  2:{ intros i Li. rewrite (Y1 i Li), sum_add, Rmult_plus_distr_l. f_equal; f_equal; apply sum_ext; intros j Lj; unfold joint; destruct (Nat.ltb_spec i 6); try lia.
      - destruct (Nat.ltb_spec j 6); [|lia]. rewrite (Y1 j Lj). reflexivity.
      - destruct (Nat.ltb_spec (6 + j) 6); [lia|]. rewrite (Y2 j Lj). unfold trm. replace (6 + j - 6)%nat with j by lia. reflexivity. }
  rewrite (sum_ext 6 (fun i => y (6 + i)%nat * sum (6 + 6) (fun j => joint prev rel cross (6 + i) j * y j)) (fun i => x i * sum 6 (fun j => cross i j * u j) + x i * sum 6 (fun j => rel i j * x j))).
  2:{ intros i Li. rewrite (Y2 i Li), sum_add, Rmult_plus_distr_l. f_equal; f_equal; apply sum_ext; intros j Lj; unfold joint; destruct (Nat.ltb_spec (6 + i) 6); try lia; replace (6 + i - 6)%nat with i by lia.
      - destruct (Nat.ltb_spec j 6); [|lia]. rewrite (Y1 j Lj). reflexivity.
      - destruct (Nat.ltb_spec (6 + j) 6); [lia|]. rewrite (Y2 j Lj). replace (6 + j - 6)%nat with j by lia. reflexivity. }
  rewrite !sum_plus. ring.
Qed.
Theorem compose_psd prev rel t cross : psd 12 (joint prev rel cross) -> psd 6 (compose_transform_covariance prev rel t cross).
Proof. intros P x. unfold compose_transform_covariance. rewrite quad_joint. apply P. Qed.

(* relative transforms and their frames *)
Theorem relative_laws p q r : rigid p -> rigid q -> imul p (relative_transform p q) = q /\ relative_transform p p = iid /\
  imul (relative_transform p q) (relative_transform q r) = relative_transform p r /\ iinv (relative_transform p q) = relative_transform q p.
Proof.
  intros P Q. unfold relative_transform. split; [rewrite imul_assoc, imul_inv_r by exact P; apply imul_id_l|]. split; [apply imul_inv_l; exact P|].
  split; [rewrite <- imul_assoc, (imul_assoc q), imul_inv_r by exact Q; rewrite imul_id_l; reflexivity|].
  rewrite iinv_mul by (try apply rigid_inv; assumption). rewrite iinv_inv by exact P. reflexivity.
Qed.
(* the same motion seen from a frame rigidly attached by T_B_A *)
Theorem change_relative_spec pa pa' t : rigid pa -> rigid t ->
  change_relative_transform_frame (relative_transform pa pa') t = relative_transform (imul pa (iinv t)) (imul pa' (iinv t)).
Proof.
  intros P T. unfold change_relative_transform_frame, change_relative_transform_frame2, relative_transform. rewrite iinv_mul by (try apply rigid_inv; assumption). rewrite iinv_inv by exact T. rewrite !imul_assoc. reflexivity.
Qed.
Theorem change_relative_laws a b t u : rigid t -> rigid u ->
  change_relative_transform_frame iid t = iid /\ change_relative_transform_frame (imul a b) t = imul (change_relative_transform_frame a t) (change_relative_transform_frame b t) /\
  change_relative_transform_frame (change_relative_transform_frame a t) u = change_relative_transform_frame a (imul u t) /\
  change_relative_transform_frame (change_relative_transform_frame a t) (iinv t) = a.
Proof.
  intros T U. unfold change_relative_transform_frame, change_relative_transform_frame2. split; [rewrite imul_id_r; apply imul_inv_r; exact T|].
  split. { rewrite !imul_assoc. rewrite <- (imul_assoc (imul t a) (iinv t) t), imul_inv_l by exact T. rewrite imul_id_r. reflexivity. }
  split. { rewrite iinv_mul by assumption. rewrite !imul_assoc. reflexivity. }
  rewrite iinv_inv by exact T. rewrite !imul_assoc. rewrite imul_inv_l by exact T. rewrite imul_id_l. rewrite <- imul_assoc, imul_inv_l by exact T. apply imul_id_r.
Qed.

(* point covariances under rotation *)
Theorem rotate_point_laws c r s : rotate_point_covariance c mI = c /\ rotate_point_covariance (rotate_point_covariance c s) r = rotate_point_covariance c (mmul r s) /\
  (orth r -> rotate_point_covariance (rotate_point_covariance c r) (mT r) = c) /\ (mT c = c -> mT (rotate_point_covariance c r) = rotate_point_covariance c r) /\
  forall v, vdot v (mapply (rotate_point_covariance c r) v) = vdot (mapply (mT r) v) (mapply c (mapply (mT r) v)).
Proof.
  unfold rotate_point_covariance. split; [rewrite mT_I, mmul_I_l, mmul_I_r; reflexivity|]. split; [rewrite mT_mul, !mmul_assoc; reflexivity|].
  split. { intros [A B]. rewrite mT_T, !mmul_assoc, A, mmul_I_l, <- mmul_assoc, A. apply mmul_I_r. }
  split. { intros E. rewrite !mT_mul, mT_T, E, mmul_assoc. reflexivity. }
  intros v. rewrite !mapply_mul. rewrite (vdot_comm v), vdot_mapply, vdot_comm. reflexivity.
Qed.

(* IMU frames *)
Definition imu_eq (a b : imu) : Prop := qmat (i_ori a) = qmat (i_ori b) /\ i_w a = i_w b /\ i_a a = i_a b /\ i_ocov a = i_ocov b /\ i_wcov a = i_wcov b /\ i_acov a = i_acov b.
Lemma conj_conj m n c : mmul m n = mI -> mmul (mmul m (mmul (mmul n c) (mT n))) (mT m) = c.
Proof. intros H. rewrite !mmul_assoc, H, mmul_I_l, <- mmul_assoc, <- mT_mul, H, mT_I. apply mmul_I_r. Qed.
Theorem change_frame_back s q : qunit (i_ori s) -> qunit q -> imu_eq (change_frame (change_frame s q (qconj q)) (qconj q) q) s.
Proof.
  intros H Q. destruct (qmat_orth q Q) as [A B]. unfold imu_eq, change_frame. cbn [i_ori i_w i_a i_ocov i_wcov i_acov]. rewrite !qmat_conj.
  split. { rewrite !qmat_mul by (try apply qunit_mul; try apply qunit_conj; assumption). rewrite qmat_conj, <- mmul_assoc, B. apply mmul_I_r. }
  split; [rewrite <- mapply_mul, B; apply mapply_I|]. split; [rewrite <- mapply_mul, B; apply mapply_I|].
  split; [apply conj_conj; exact A|]. split; apply conj_conj; exact B.
Qed.
(* vectors keep their length and the world-frame reading of a vector does not change when to_ext and from_ext are mutually inverse *)
Theorem change_frame_world s q : qunit (i_ori s) -> qunit q -> let s' := change_frame s q (qconj q) in
  mapply (qmat (i_ori s')) (i_w s') = mapply (qmat (i_ori s)) (i_w s) /\ mapply (qmat (i_ori s')) (i_a s') = mapply (qmat (i_ori s)) (i_a s) /\
  mmul (mmul (qmat (i_ori s')) (i_wcov s')) (mT (qmat (i_ori s'))) = mmul (mmul (qmat (i_ori s)) (i_wcov s)) (mT (qmat (i_ori s))) /\
  mmul (mmul (qmat (i_ori s')) (i_acov s')) (mT (qmat (i_ori s'))) = mmul (mmul (qmat (i_ori s)) (i_acov s)) (mT (qmat (i_ori s))).
Proof.
  intros H Q s'. destruct (qmat_orth q Q) as [A B]. unfold s', change_frame. cbn [i_ori i_w i_a i_ocov i_wcov i_acov]. rewrite !qmat_mul by assumption. rewrite !qmat_conj.
  assert (V : forall v, mapply (mmul (qmat (i_ori s)) (qmat q)) (mapply (mT (qmat q)) v) = mapply (qmat (i_ori s)) v) by (intros v; rewrite <- mapply_mul, <- mmul_assoc, B, mmul_I_r; reflexivity).
  assert (C : forall c, mmul (mmul (mmul (qmat (i_ori s)) (qmat q)) (mmul (mmul (mT (qmat q)) c) (mT (mT (qmat q))))) (mT (mmul (qmat (i_ori s)) (qmat q))) = mmul (mmul (qmat (i_ori s)) c) (mT (qmat (i_ori s)))).
  { intros c. rewrite mT_T, mT_mul, !mmul_assoc. rewrite <- (mmul_assoc (qmat (i_ori s)) (qmat q)), B, mmul_I_r. rewrite <- (mmul_assoc (mmul (qmat (i_ori s)) c)), B, mmul_I_r. reflexivity. }
  split; [apply V|]. split; [apply V|]. split; apply C.
Qed.

(* skew *)
Theorem skew_spec v w : mapply (skew v) w = vcross v w /\ mT (skew v) = mopp (skew v). Proof. split; [apply skew_cross|apply skew_antisym]. Qed.
Theorem from_skew_inverts v : from_skew_symmetric (skew v) = Ok v.
Proof. destruct v as [[x y] z]. unfold from_skew_symmetric, skew. assert (M0 : Rmax 0 0 = 0) by (apply Rmax_left; lra). rewrite !M0. destruct (Rlt_dec 0 0); [lra|reflexivity]. Qed.
(* what it really rejects *)
Theorem from_skew_throws_iff m : from_skew_symmetric m = Throw <-> exists i, (i < 3)%nat /\ 0 < mget m i i.
Proof.
  destruct m as [[[[a b] c] [[d e] f]] [[g h] i]]. unfold from_skew_symmetric. destruct (Rlt_dec 0 (Rmax (Rmax a e) i)) as [P|P].
  - split; [intros _|reflexivity]. destruct (Rmax_Rlt (Rmax a e) i 0) as [_ K]. unfold Rmax in P. destruct (Rle_dec a e); destruct (Rle_dec _ i); [exists 2%nat|exists 1%nat|exists 2%nat|exists 0%nat]; split; try lia; exact P.
  - split; [discriminate|]. intros [k [Lk H]]. exfalso. apply P. pose proof (Rmax_l (Rmax a e) i). pose proof (Rmax_r (Rmax a e) i). pose proof (Rmax_l a e). pose proof (Rmax_r a e).
    destruct k as [|[|[|k]]]; try lia; cbn in H; lra.
Qed.

(* polar *)
Definition polar_of (x y z : R) (p : vec3) : Prop :=
  let '(r, a, e) := p in 0 <= r /\ 0 <= a < 2 * PI /\ 0 <= e <= PI /\ x = r * sin e * cos a /\ y = r * sin e * sin a /\ z = r * cos e.
Lemma acos_cos_range x : -1 <= x <= 1 -> cos (acos x) = x. Proof. intros [H K]. apply cos_acos. lra. Qed.
Lemma c_acos_ok x : -1 <= x <= 1 -> c_acos x = Ok (acos x).
Proof. intros H. unfold c_acos. destruct (Rlt_dec 1 (Rabs x)) as [L|]; [|reflexivity]. unfold Rabs in L. destruct (Rcase_abs x); lra. Qed.
(* the elevation and the radius are right for every point off the z axis *)
Theorem polar_radius_elevation x y z p : cartesian_to_polar x y z = Ok p -> let '(r, a, e) := p in r = sqrt (x * x + y * y + z * z) /\ z = r * cos e /\ 0 <= e <= PI.
Proof.
  unfold cartesian_to_polar. destruct (Req_EM_T (x * x + y * y) 0) as [|NZ]; [discriminate|]. destruct (c_acos (x / (x * x + y * y))) as [a_| |]; try discriminate. cbn [rbind].
  set (r := sqrt (x * x + y * y + z * z)). unfold c_acos. destruct (Rlt_dec 1 (Rabs (z / r))) as [|L]; [discriminate|]. cbn [rbind]. intros [= <-]. split; [reflexivity|].
  assert (RP : 0 < r) by (apply sqrt_lt_R0; nra). assert (B : -1 <= z / r <= 1) by (apply Rnot_lt_le in L; unfold Rabs in L; destruct (Rcase_abs (z / r)); lra).
  rewrite (acos_cos_range _ B). split; [field; lra|]. apply acos_bound.
Qed.
(* throws exactly on the z axis; otherwise yields numbers exactly when |x| does not exceed x^2 + y^2 *)
Theorem polar_outcomes x y z : (cartesian_to_polar x y z = Throw <-> x = 0 /\ y = 0) /\ (cartesian_to_polar x y z = UB <-> x * x + y * y < Rabs x).
Proof.
  unfold cartesian_to_polar. destruct (Req_EM_T (x * x + y * y) 0) as [E|NZ].
  - assert (X0 : x = 0) by nra. assert (Y0 : y = 0) by nra. split; [tauto|]. split; [discriminate|]. intros H. rewrite E, X0, Rabs_R0 in H. lra.
  - set (q := x * x + y * y) in *. assert (QP : 0 < q) by (unfold q in *; nra).
    assert (AB : Rabs (x / q) = Rabs x / q) by (unfold Rdiv; rewrite Rabs_mult, (Rabs_right (/ q)) by (left; apply Rinv_0_lt_compat; exact QP); reflexivity).
    set (r := sqrt (q + z * z)). assert (RP : 0 < r) by (apply sqrt_lt_R0; nra). assert (RR : r * r = q + z * z) by (apply sqrt_sqrt; nra).
    assert (B : -1 <= z / r <= 1).
    { split; [apply Rmult_le_reg_r with r; [exact RP|]; unfold Rdiv; rewrite Rmult_assoc, Rinv_l by lra; nra|apply Rmult_le_reg_r with r; [exact RP|]; unfold Rdiv; rewrite Rmult_assoc, Rinv_l by lra; nra]. }
    unfold c_acos at 1 3. rewrite AB. destruct (Rlt_dec 1 (Rabs x / q)) as [L|L]; cbn [rbind].
    + split; [split; [discriminate|intros [-> ->]; unfold q in QP; lra]|]. split; [intros _|reflexivity]. apply (Rmult_lt_compat_r q) in L; [|exact QP]. unfold Rdiv in L. rewrite Rmult_assoc, Rinv_l in L by lra. lra.
    + rewrite (c_acos_ok _ B). cbn [rbind]. split; [split; [discriminate|intros [-> ->]; unfold q in QP; lra]|]. split; [discriminate|]. intros H. exfalso. apply L. apply Rmult_lt_reg_r with q; [exact QP|]. unfold Rdiv. rewrite Rmult_assoc, Rinv_l by lra. lra.
Qed.
(* the result is the polar form of the point exactly when the point lies on the unit circle about the z axis, or on the plane x = 0 *)
Theorem polar_right_iff x y z p : cartesian_to_polar x y z = Ok p -> (polar_of x y z p <-> x * x + y * y = 1 \/ x = 0).
Proof.
  intros H. pose proof (polar_radius_elevation x y z p H) as RE. assert (H' := H). unfold cartesian_to_polar in H. destruct (Req_EM_T (x * x + y * y) 0) as [|NZ]; [discriminate|].
  set (q := x * x + y * y) in *. assert (QP : 0 < q) by (unfold q in *; nra).
  destruct (c_acos (x / q)) as [a_| |] eqn:CA; try discriminate. cbn [rbind] in H. unfold c_acos in CA. destruct (Rlt_dec 1 (Rabs (x / q))) as [|L]; [discriminate|]. injection CA as <-.
  destruct (c_acos (z / sqrt (q + z * z))) as [e| |]; try discriminate. cbn [rbind] in H. injection H as <-. destruct RE as (_ & Z & E0).
  set (r := sqrt (q + z * z)) in *. assert (RP : 0 < r) by (apply sqrt_lt_R0; nra). assert (RR : r * r = q + z * z) by (apply sqrt_sqrt; nra).
  assert (B : -1 <= x / q <= 1) by (apply Rnot_lt_le in L; unfold Rabs in L; destruct (Rcase_abs (x / q)); lra).
  assert (SE : 0 <= sin e) by (apply sin_ge_0; lra). assert (SQ : (r * sin e) * (r * sin e) = q).
  { pose proof (sin2_cos2 e) as SC. unfold Rsqr in SC. replace (r * sin e * (r * sin e)) with (r * r * (sin e * sin e)) by ring. replace (sin e * sin e) with (1 - cos e * cos e) by lra.
    replace (r * r * (1 - cos e * cos e)) with (r * r - (r * cos e) * (r * cos e)) by ring. rewrite <- Z, RR. ring. }
  set (s := r * sin e) in *. assert (SP : 0 < s). { assert (S0 : 0 <= s) by (apply Rmult_le_pos; lra). destruct S0 as [S0|S0]; [exact S0|]. rewrite <- S0 in SQ. lra. }
  set (a_ := acos (x / q)) in *. assert (CA : cos a_ = x / q) by (apply acos_cos_range; exact B). assert (AR : 0 <= a_ <= PI) by (apply acos_bound).
  set (a := if Rle_dec 0 y then a_ else 2 * PI - a_). assert (Ca : cos a = x / q).
  { unfold a. destruct (Rle_dec 0 y); [exact CA|]. replace (2 * PI - a_) with (- a_ + 2 * PI) by ring. replace (- a_ + 2 * PI) with (- a_ + 2 * INR 1 * PI) by (cbn; ring). rewrite cos_period, cos_neg. exact CA. }
  unfold polar_of. fold s. rewrite Ca. split.
  - intros (_ & _ & _ & X & _). destruct (Req_dec x 0) as [->|NX]; [right; reflexivity|left].
    (* x = s x / q gives s = q, and s^2 = q *)
    assert (s = q). { assert (x * q = s * x) by (rewrite X at 1; field; lra). nra. } nra.
  - intros OR. assert (XX : x = s * (x / q)).
    { destruct OR as [E|E]; [|rewrite E; field; lra]. rewrite E in *. assert (s = 1) by nra. rewrite H. field. }
    assert (NZ' : y < 0 -> a_ <> 0).
    { intros YN Z0. rewrite Z0, cos_0 in CA. assert (x = q) by (apply (f_equal (fun u => u * q)) in CA; unfold Rdiv in CA; rewrite Rmult_assoc, Rinv_l in CA by lra; lra).
      destruct OR as [E|E]; unfold q in *; nra. }
    split; [lra|]. split; [|split; [exact E0|split; [exact XX|split; [|exact Z]]]].
    + unfold a. pose proof PI_RGT_0. destruct (Rle_dec 0 y); [lra|]. specialize (NZ' ltac:(lra)). lra.
    + (* sin a has the sign of y and s sin a squared is y^2 *)
      assert (S2 : (s * sin a) * (s * sin a) = y * y).
      { pose proof (sin2_cos2 a) as SC. unfold Rsqr in SC. rewrite Ca in SC. replace (s * sin a * (s * sin a)) with (s * s * (1 - x / q * (x / q))) by (replace (1 - x / q * (x / q)) with (sin a * sin a) by lra; ring).
        replace (s * s * (1 - x / q * (x / q))) with (s * s - (s * (x / q)) * (s * (x / q))) by ring. rewrite <- XX, SQ. unfold q. ring. }
      assert (SG : (0 <= y -> 0 <= sin a) /\ (y < 0 -> sin a <= 0)).
      { unfold a. split; intros Y; destruct (Rle_dec 0 y) as [YP|YN]; try lra; [apply sin_ge_0; lra|].
        replace (2 * PI - a_) with (- a_ + 2 * INR 1 * PI) by (cbn; ring). rewrite sin_period, sin_neg. pose proof (sin_ge_0 a_ ltac:(lra) ltac:(lra)). lra. }
      destruct (Rle_or_lt 0 y) as [YP|YN].
      * pose proof (proj1 SG YP). apply Rsqr_inj; [exact YP|apply Rmult_le_pos; lra|unfold Rsqr; lra].
      * pose proof (proj2 SG YN). assert (E : - y = s * - sin a); [|lra]. apply Rsqr_inj; [lra|apply Rmult_le_pos; lra|unfold Rsqr; lra].
Qed.

(* covariances made of two blocks: rotation (angular) first, translation (linear) second, nothing across *)
Definition two_blocks (cov : mx) (first second : mat3) : Prop :=
  forall i j, (i < 3)%nat -> (j < 3)%nat -> cov i j = mget first i j /\ cov (3 + i)%nat (3 + j)%nat = mget second i j /\ cov i (3 + j)%nat = 0 /\ cov (3 + i)%nat j = 0.
Lemma blocks_two a d : two_blocks (blocks a m0 m0 d) a d.
Proof.
  intros i j Li Lj. destruct i as [|[|[|i]]]; [| | |lia]; (destruct j as [|[|[|j]]]; [| | |lia]); repeat split; reflexivity.
Qed.
Lemma block3_get m r c i j : (i < 3)%nat -> (j < 3)%nat -> mget (block3 m r c) i j = m (i + r)%nat (j + c)%nat.
Proof. intros Li Lj. destruct i as [|[|[|i]]]; [| | |lia]; (destruct j as [|[|[|j]]]; [| | |lia]); reflexivity. Qed.
Theorem made_of_blocks p q pc oc l a lc ac : two_blocks (p_cov (pose_of_blocks p q pc oc)) oc pc /\ two_blocks (t_cov (twist_of_blocks l a lc ac)) ac lc.
Proof. split; apply blocks_two. Qed.
Theorem blocks_of_twist t i j : (i < 3)%nat -> (j < 3)%nat ->
  mget (angular_velocity_covariance t) i j = t_cov t i j /\ mget (linear_velocity_covariance t) i j = t_cov t (3 + i)%nat (3 + j)%nat.
Proof.
  intros Li Lj. unfold angular_velocity_covariance, linear_velocity_covariance. rewrite !block3_get by assumption. rewrite !Nat.add_0_r, (Nat.add_comm i), (Nat.add_comm j). split; reflexivity.
Qed.
