(* Evaluation scripts: errors of poses, what moving the trajectories does, alignment to the first pose, length. *)
From Coq Require Import Reals List ZArith Lra Lia Bool.
From Verif Require Import Base Interp Geo EgModel EgProofs MsModel RoModel BfModel EvModel EvSpec EvProofs.
Import ListNotations.
Open Scope R_scope.

(* ---- quaternions ---- *)
Lemma quad_eq (a b c d a' b' c' d' : R) : a = a' -> b = b' -> c = c' -> d = d' -> (a, b, c, d) = (a', b', c', d').
Proof. intros -> -> -> ->. reflexivity. Qed.
Lemma triple_eq (a b c a' b' c' : R) : a = a' -> b = b' -> c = c' -> (a, b, c) = (a', b', c').
Proof. intros -> -> ->. reflexivity. Qed.
Lemma qnorm_pos q : qdot q q <> 0 -> 0 < qdot q q.
Proof. destruct q as [[[a b] c] d]. unfold qdot. intros H. pose proof (Rle_0_sqr a). pose proof (Rle_0_sqr b). pose proof (Rle_0_sqr c). pose proof (Rle_0_sqr d). unfold Rsqr in *. lra. Qed.
Lemma qnormalise_eq q : qdot q q <> 0 -> qnormalise q = qlin (/ sqrt (qdot q q)) 0 q q.
Proof.
  intros H. apply qnorm_pos in H. destruct q as [[[a b] c] d]. unfold qnormalise. unfold qdot in H. destruct (Rlt_dec 0 (b * b + c * c + d * d + a * a)) as [P|P]; [|exfalso; lra]. unfold qlin, qdot, Rdiv. replace (b * b + c * c + d * d + a * a) with (a * a + b * b + c * c + d * d) by ring. set (n := / sqrt _). apply quad_eq; ring.
Qed.
Lemma qnormalise_unit q : qdot q q <> 0 -> qunit (qnormalise q).
Proof.
  intros H. rewrite qnormalise_eq by exact H. apply qnorm_pos in H. unfold qunit. rewrite qdot_lin. set (n := qdot q q) in *. assert (Pn : 0 < sqrt n) by (apply sqrt_lt_R0; exact H). assert (E : sqrt n * sqrt n = n) by (apply sqrt_sqrt; lra). set (s := sqrt n) in *. rewrite <- E. field. lra.
Qed.
Lemma qnormalise_id q : qunit q -> qnormalise q = q.
Proof. intros U. rewrite qnormalise_eq by (rewrite U; lra). rewrite U, sqrt_1, Rinv_1. destruct q as [[[a b] c] d]. unfold qlin. apply quad_eq; ring. Qed.
Lemma qdot_mul p q : qdot (qmul p q) (qmul p q) = qdot p p * qdot q q.
Proof. destruct p as [[[a b] c] d], q as [[[e f] g] h]. unfold qdot, qmul. ring. Qed.
Lemma qnormalise_mul g q : qunit g -> qdot q q <> 0 -> qnormalise (qmul g q) = qmul g (qnormalise q).
Proof.
  intros U H. assert (H' : qdot (qmul g q) (qmul g q) <> 0) by (rewrite qdot_mul, U; lra). rewrite !qnormalise_eq by assumption. rewrite qdot_mul, U, Rmult_1_l. destruct g as [[[a b] c] d], q as [[[e f] h] k]. unfold qlin, qmul. apply quad_eq; ring.
Qed.
Lemma qunit_oriented q : qunit q -> qdot q q <> 0. Proof. unfold qunit. lra. Qed.

(* ---- matrices of poses ---- *)
Lemma pose_motion p : oriented p -> motion (pose_to_matrix p).
Proof. intros H. unfold motion, pose_to_matrix, to_transform. cbn [lin]. apply qmat_proper. apply qnormalise_unit. exact H. Qed.
Lemma pose_unit p : qunit (mp_ori p) -> pose_to_matrix p = to_transform (mp_pos p) (mp_ori p).
Proof. intros U. unfold pose_to_matrix. rewrite qnormalise_id by exact U. reflexivity. Qed.
Lemma pose_scaled x q k : 0 < k -> qdot q q <> 0 -> pose_to_matrix (mkMP x (qlin k 0 q q)) = pose_to_matrix (mkMP x q).
Proof.
  intros K H. unfold pose_to_matrix. cbn [mp_pos mp_ori]. f_equal. assert (E : qdot (qlin k 0 q q) (qlin k 0 q q) = (k * k) * qdot q q) by (rewrite qdot_lin; ring). pose proof (qnorm_pos q H) as P. assert (H' : qdot (qlin k 0 q q) (qlin k 0 q q) <> 0) by (rewrite E; apply Rgt_not_eq; apply Rmult_lt_0_compat; nra).
  rewrite !qnormalise_eq by assumption. rewrite E, sqrt_mult by nra. rewrite sqrt_square by lra. assert (Sp : 0 < sqrt (qdot q q)) by (apply sqrt_lt_R0; exact P). destruct q as [[[a b] c] d]. set (s := sqrt (qdot (a, b, c, d) (a, b, c, d))) in *. unfold qlin. apply quad_eq; field; lra.
Qed.
Lemma moved_matrix t q p : qunit q -> oriented p -> pose_to_matrix (moved t q p) = imul (to_transform t q) (pose_to_matrix p).
Proof.
  intros U H. unfold pose_to_matrix, moved. cbn [mp_pos mp_ori]. rewrite qnormalise_mul by assumption. unfold to_transform, imul. cbn [lin tr]. rewrite qmat_mul by (try exact U; apply qnormalise_unit; exact H). reflexivity.
Qed.
Lemma moved_oriented t q p : qunit q -> oriented p -> oriented (moved t q p).
Proof. unfold oriented, moved. cbn [mp_ori]. intros U H. rewrite qdot_mul, U. lra. Qed.

Lemma ldiv_id g x : rigid g -> ldiv g x = iid <-> x = g.
Proof.
  intros Hg. unfold ldiv. split.
  - intros H. rewrite <- (imul_id_l x), <- (imul_inv_r g Hg), <- imul_assoc, H. apply imul_id_r.
  - intros ->. apply imul_inv_l. exact Hg.
Qed.
Lemma ldiv_left m a b : rigid m -> rigid a -> ldiv (imul m a) (imul m b) = ldiv a b.
Proof. intros Hm Ha. unfold ldiv. rewrite iinv_mul by assumption. rewrite <- imul_assoc, (imul_assoc (iinv m)), imul_inv_l by exact Hm. rewrite imul_id_l. reflexivity. Qed.

Section Contracts.
Variable mixq : quat -> quat -> R -> quat.
Variable r2q : mat3 -> quat.
Hypothesis unit_mix : stays_unit mixq.

(* the pose between two recorded poses *)
Definition pose_between (a b : mpose) (c : R) : iso :=
  mkIso (qmat (mixq (qnormalise (mp_ori a)) (qnormalise (mp_ori b)) c)) (between_points (mp_pos a) (mp_pos b) c).
Definition raw_between (a b : mpose) (c : R) : iso :=
  to_transform (vadd (mp_pos a) (vscale c (vsub (mp_pos b) (mp_pos a)))) (qnormalise (mixq (qnormalise (mp_ori a)) (qnormalise (mp_ori b)) c)).
Lemma raw_is t1 t2 a b t : interp_transform mixq t1 t2 a b t = coefficient t1 t2 t (raw_between a b). Proof. reflexivity. Qed.
Lemma raw_eq a b c : oriented a -> oriented b -> 0 <= c <= 1 -> raw_between a b c = pose_between a b c.
Proof.
  intros Ha Hb Hc. unfold raw_between, pose_between, to_transform. rewrite qnormalise_id by (apply unit_mix; [apply qnormalise_unit; exact Ha|apply qnormalise_unit; exact Hb|exact Hc]).
  f_equal. destruct (mp_pos a) as [[x y] z], (mp_pos b) as [[x' y'] z']. unfold between_points, vadd, vscale, vsub, vopp. apply triple_eq; ring.
Qed.
Definition all_oriented (l : list (R * mpose)) : Prop := forall e, In e l -> oriented (snd e).
Lemma value_eq gt t v : all_oriented gt -> value_at pose_to_matrix raw_between gt t v -> value_at pose_to_matrix pose_between gt t v.
Proof.
  intros O [H|(l1 & l2 & t1 & a & t2 & b & c & E & H & Hc & ->)]; [left; exact H|]. right. exists l1, l2, t1, a, t2, b, c. split; [exact E|]. split; [exact H|]. split; [exact Hc|]. apply raw_eq.
  - apply (O (t1, a)). rewrite E. apply in_or_app. right. left. reflexivity.
  - apply (O (t2, b)). rewrite E. apply in_or_app. right. right. left. reflexivity.
  - split; nra.
Qed.
Lemma value_motion gt t v : all_oriented gt -> value_at pose_to_matrix pose_between gt t v -> motion v.
Proof.
  intros O [(a & Ha & ->)|(l1 & l2 & t1 & a & t2 & b & c & E & H & Hc & ->)]; [apply pose_motion; apply (O (t, a) Ha)|]. unfold motion, pose_between. cbn [lin]. apply qmat_proper. apply unit_mix; [apply qnormalise_unit; apply (O (t1, a))|apply qnormalise_unit; apply (O (t2, b))|split; nra].
  - rewrite E. apply in_or_app. right. left. reflexivity.
  - rewrite E. apply in_or_app. right. right. left. reflexivity.
Qed.

(* ---- the report ---- *)
Lemma pose_errors_defined gt l : compute_pose_errors mixq gt l <> UB.
Proof. apply (errors_defined _ raw_between). exact raw_is. Qed.
Lemma pose_errors_total gt l : gt <> [] -> in_order gt -> in_order l -> exists o, compute_pose_errors mixq gt l = Ok o.
Proof. apply (errors_total _ raw_between). exact raw_is. Qed.
Lemma pose_errors_report gt l o : in_order gt -> all_oriented gt -> compute_pose_errors mixq gt l = Ok o ->
  reports pose_to_matrix pose_between pose_to_matrix (fun g x => imul (iinv g) x) (fun pg px g x => imul (iinv (imul (iinv pg) g)) (imul (iinv px) x)) gt l (eo_abs o) (eo_abs_t o) (eo_rel o) (eo_rel_t o).
Proof.
  intros O A H. pose proof (errors_report _ raw_between _ _ _ _ raw_is gt l o O H) as (f & gs & Hf & R1 & R2 & R3 & R4 & R5 & R6 & R7). exists f, gs. split; [exact Hf|]. cbv zeta. repeat (split; [assumption|]). split.
  - intros i t x g Hk Hg. destruct (R6 i t x g Hk Hg) as [V E]. split; [apply value_eq; assumption|exact E].
  - exact R7.
Qed.
(* what the entries say *)
Lemma absolute_zero gt t g x : all_oriented gt -> value_at pose_to_matrix pose_between gt t g -> imul (iinv g) x = iid <-> x = g.
Proof. intros A V. apply ldiv_id. apply motion_rigid. apply (value_motion gt t g A V). Qed.
Lemma relative_zero pg px g x : rigid pg -> rigid g -> imul (iinv (imul (iinv pg) g)) (imul (iinv px) x) = iid <-> imul (iinv px) x = imul (iinv pg) g.
Proof. intros H1 H2. apply (ldiv_id (imul (iinv pg) g)). apply rigid_mul; [apply rigid_inv; exact H1|exact H2]. Qed.
End Contracts.
