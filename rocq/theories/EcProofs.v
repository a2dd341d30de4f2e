(* Scripts about registration covariances: proofs. *)
From Coq Require Import Reals List ZArith Lra Lia Bool.
From Verif Require Import Base Interp Geo EgModel EgProofs MsModel RoModel BfModel EvModel EvSpec EvProofs EvPose EvMove EcModel EcSpec.
Import ListNotations.
Open Scope R_scope.

(* ---- motions between poses ---- *)
Section Motions.
Variable r2q : mat3 -> quat.
Hypothesis reads : reads_rotation r2q.

Lemma done {A} (x y : A) : Ok x = Ok y -> x = y. Proof. congruence. Qed.
Lemma relative_defined l : (exists r, compute_relative_poses r2q l = Ok r) <-> (2 <= length l)%nat.
Proof. destruct l as [|p [|q l]]; cbn; split; try (intros [r H]; discriminate); try lia; intros _; eauto; lia. Qed.
Lemma relative_outcome l : (length l < 2)%nat -> compute_relative_poses r2q l = Throw.
Proof. destruct l as [|p [|q l]]; cbn; intros; try reflexivity; lia. Qed.
Lemma relative_loop_length : forall l prev, length (relative_loop r2q prev l) = length l.
Proof. induction l as [|p l IH]; intros prev; cbn; [reflexivity|rewrite IH; reflexivity]. Qed.
Lemma relative_loop_nth : forall l p i a b, nth_error (p :: l) i = Some a -> nth_error (p :: l) (S i) = Some b ->
  nth_error (relative_loop r2q (pose_to_matrix p) l) i = Some (matrix_to_pose r2q (ldiv (pose_to_matrix a) (pose_to_matrix b))).
Proof.
  induction l as [|q l IH]; intros p i a b Ha Hb; [destruct i; discriminate|]. cbn [relative_loop]. cbv zeta. destruct i as [|i]; cbn [nth_error] in *.
  - injection Ha as <-. injection Hb as <-. reflexivity.
  - apply IH; assumption.
Qed.
Lemma relative_nth l r i a b : compute_relative_poses r2q l = Ok r -> nth_error l i = Some a -> nth_error l (S i) = Some b ->
  nth_error r i = Some (matrix_to_pose r2q (ldiv (pose_to_matrix a) (pose_to_matrix b))).
Proof. destruct l as [|p [|q l]]; try discriminate. intros H. apply done in H. subst r. apply relative_loop_nth. Qed.
Lemma relative_length l r : compute_relative_poses r2q l = Ok r -> S (length r) = length l.
Proof. destruct l as [|p [|q l]]; try discriminate. intros H. apply done in H. subst r. rewrite relative_loop_length. reflexivity. Qed.
Lemma motion_ldiv a b : motion a -> motion b -> motion (ldiv a b).
Proof. intros A B. apply motion_mul; [apply motion_inv; exact A|exact B]. Qed.
Lemma relative_steps l r : Forall oriented l -> compute_relative_poses r2q l = Ok r -> steps l r.
Proof.
  intros O H. split; [apply relative_length; exact H|]. intros i a b Ha Hb. exists (matrix_to_pose r2q (ldiv (pose_to_matrix a) (pose_to_matrix b))). split; [apply (relative_nth l); assumption|].
  rewrite Forall_forall in O. pose proof (pose_motion a (O a (nth_error_In _ _ Ha))) as Ma. pose proof (pose_motion b (O b (nth_error_In _ _ Hb))) as Mb.
  destruct (to_pose_back r2q reads _ (motion_ldiv _ _ Ma Mb)) as (E & _). rewrite E. unfold ldiv. rewrite imul_assoc, imul_inv_r, imul_id_l by (apply motion_rigid; exact Ma). reflexivity.
Qed.
Lemma relative_position l r i a b : compute_relative_poses r2q l = Ok r -> nth_error l i = Some a -> nth_error l (S i) = Some b ->
  exists x, nth_error r i = Some x /\ mp_pos x = seen_from a b.
Proof. intros H Ha Hb. eexists. split; [apply (relative_nth l); eassumption|]. reflexivity. Qed.
Lemma relative_moved t q l : qunit q -> Forall oriented l -> compute_relative_poses r2q (map (moved t q) l) = compute_relative_poses r2q l.
Proof.
  intros U O. destruct l as [|p l]; [reflexivity|]. destruct l as [|p' l]; [reflexivity|]. cbn [map compute_relative_poses]. f_equal. change (moved t q p' :: map (moved t q) l) with (map (moved t q) (p' :: l)).
  revert O. generalize (p' :: l). clear l p'. intros l. revert p. induction l as [|e l IH]; intros p O; [reflexivity|]. cbn [map relative_loop]. cbv zeta.
  inversion O as [|? ? Op O']; subst. inversion O' as [|? ? Oe O'']; subst. rewrite IH by exact O'. f_equal. rewrite !moved_matrix by assumption.
  rewrite ldiv_left; [reflexivity|apply rigid_to_transform; exact U|apply motion_rigid, pose_motion; exact Op].
Qed.
End Motions.

(* ---- the ellipsoid ---- *)
Lemma decomposed_apply C v d x : C = mmul v (mmul (diag d) (mT v)) -> mapply C x = mapply v (times d (mapply (mT v) x)).
Proof. intros ->. rewrite !mapply_mul. f_equal. destruct d as [[a b] c]. generalize (mapply (mT v) x). intros [[y z] w]. vred. unfold diag, times. tup; ring. Qed.
Lemma orth_back v x : orth v -> mapply (mT v) (mapply v x) = x. Proof. intros [A _]. rewrite <- mapply_mul, A. apply mapply_I. Qed.
Lemma orth_forth v x : orth v -> mapply v (mapply (mT v) x) = x. Proof. intros [_ A]. rewrite <- mapply_mul, A. apply mapply_I. Qed.
Lemma definite_values C v d : orth v -> C = mmul v (mmul (diag d) (mT v)) -> definite C -> let '(a, b, c) := d in 0 < a /\ 0 < b /\ 0 < c.
Proof.
  intros O E D. assert (P : forall u, u <> v0 -> 0 < vdot u (times d u)).
  { intros u Hu. assert (N : mapply v u <> v0). { intros Z. apply Hu. rewrite <- (orth_back v u O), Z. vring. } specialize (D _ N). rewrite (decomposed_apply _ _ _ _ E), orth_back in D by exact O. rewrite orth_dot in D by exact O. exact D. }
  destruct d as [[a b] c]. pose proof (P (1, 0, 0)) as P1. pose proof (P (0, 1, 0)) as P2. pose proof (P (0, 0, 1)) as P3. unfold times, vdot, v0 in *.
  split; [|split]; match goal with |- 0 < ?x => idtac end; [assert (T : (1, 0, 0) <> (0, 0, 0)) by (intros Z; injection Z; lra); specialize (P1 T)|assert (T : (0, 1, 0) <> (0, 0, 0)) by (intros Z; injection Z; lra); specialize (P2 T)|assert (T : (0, 0, 1) <> (0, 0, 0)) by (intros Z; injection Z; lra); specialize (P3 T)]; lra.
Qed.
Lemma deviations_pos k a b c : 0 < a -> 0 < b -> 0 < c -> deviations k (a, b, c) = (k * sqrt a, k * sqrt b, k * sqrt c).
Proof. intros A B C. unfold deviations. destruct (rltb a 0) eqn:Ea; [apply rltb_t in Ea; lra|]. destruct (rltb b 0) eqn:Eb; [apply rltb_t in Eb; lra|]. destruct (rltb c 0) eqn:Ec; [apply rltb_t in Ec; lra|]. reflexivity. Qed.

Section Ellipsoid.
Variable eig : mat3 -> mat3 * vec3.
Lemma ellipsoid_surface means C k : decomposes C (eig C) -> definite C -> 0 < k -> surface (ellipsoid_point eig means C k) means C k.
Proof.
  intros [O E] D K p. unfold ellipsoid_point. destruct (eig C) as [v d]. cbn [fst snd] in *. pose proof (definite_values C v d O E D) as P. destruct d as [[a b] c]. destruct P as (A & B & Cc). rewrite deviations_pos by assumption.
  pose proof (sqrt_lt_R0 a A) as SA. pose proof (sqrt_lt_R0 b B) as SB. pose proof (sqrt_lt_R0 c Cc) as SC. pose proof (sqrt_sqrt a (Rlt_le _ _ A)) as QA. pose proof (sqrt_sqrt b (Rlt_le _ _ B)) as QB. pose proof (sqrt_sqrt c (Rlt_le _ _ Cc)) as QC.
  set (s := sqrt a) in *. set (s1 := sqrt b) in *. set (s2 := sqrt c) in *. unfold deviates. split.
  - intros [u [U <-]]. destruct u as [[x y] z]. exists (mapply v (k * x / s, k * y / s1, k * z / s2)). rewrite (decomposed_apply _ _ _ _ E), orth_back by exact O.
    assert (T : times (a, b, c) (k * x / s, k * y / s1, k * z / s2) = times (k * s, k * s1, k * s2) (x, y, z)). { unfold times. rewrite <- QA, <- QB, <- QC. tup; field; lra. }
    split.
    + rewrite T. generalize (mapply v (times (k * s, k * s1, k * s2) (x, y, z))). intros w. vring.
    + replace (vsub (vadd (mapply v (times (k * s, k * s1, k * s2) (x, y, z))) means) means) with (mapply v (times (k * s, k * s1, k * s2) (x, y, z))) by (generalize (mapply v (times (k * s, k * s1, k * s2) (x, y, z))); vring).
      rewrite orth_dot by exact O. unfold times, vdot in *. replace (k * k) with (k * k * (x * x + y * y + z * z)) by (rewrite U; ring). field. lra.
  - intros [x [Hx Q]]. rewrite (decomposed_apply _ _ _ _ E) in Hx. remember (mapply (mT v) x) as w eqn:Hw. destruct w as [[x1 y1] z1].
    exists (s * x1 / k, s1 * y1 / k, s2 * z1 / k).
    assert (T : times (k * s, k * s1, k * s2) (s * x1 / k, s1 * y1 / k, s2 * z1 / k) = times (a, b, c) (x1, y1, z1)). { unfold times. rewrite <- QA, <- QB, <- QC. tup; field; lra. }
    split.
    + rewrite <- Hx, vdot_mapply, <- Hw in Q. unfold times, vdot in *. assert (Q' : s * s * (x1 * x1) + s1 * s1 * (y1 * y1) + s2 * s2 * (z1 * z1) = k * k) by (rewrite QA, QB, QC, <- Q; ring).
      replace (s * x1 / k * (s * x1 / k) + s1 * y1 / k * (s1 * y1 / k) + s2 * z1 / k * (s2 * z1 / k)) with ((s * s * (x1 * x1) + s1 * s1 * (y1 * y1) + s2 * s2 * (z1 * z1)) / (k * k)) by (field; lra). rewrite Q'. field. lra.
    + rewrite T, Hx. generalize p means. vring.
Qed.
(* a negative variance is drawn as none: the ellipsoid is flat in that direction *)
Lemma clamped k d i : (i < 3)%nat -> vget (deviations k d) i = k * sqrt (Rmax (vget d i) 0).
Proof.
  intros Hi. destruct d as [[a b] c]. unfold deviations. destruct (rltb a 0 || rltb b 0 || rltb c 0) eqn:E.
  - destruct i as [|[|[|i]]]; try reflexivity; lia.
  - apply orb_false_iff in E. destruct E as [E E3]. apply orb_false_iff in E. destruct E as [E1 E2]. apply rltb_f in E1. apply rltb_f in E2. apply rltb_f in E3. destruct i as [|[|[|i]]]; try lia; cbn [vget]; rewrite Rmax_left by assumption; reflexivity.
Qed.

(* ---- the scatter ---- *)
Lemma normalised_size C t : decomposes C (eig C) -> definite C -> exists e, normalised_error eig C t = Some e /\
  let '(a, b, c) := snd (eig C) in let '(x, y, z) := t in vdot e e = (x * x / a + y * y / b + z * z / c) / 4.
Proof.
  intros [O E] D. unfold normalised_error. destruct (eig C) as [v d]. cbn [fst snd] in *. pose proof (definite_values C v d O E D) as P. destruct d as [[a b] c]. destruct P as (A & B & Cc). rewrite deviations_pos by assumption.
  pose proof (sqrt_lt_R0 a A) as SA. pose proof (sqrt_lt_R0 b B) as SB. pose proof (sqrt_lt_R0 c Cc) as SC. pose proof (sqrt_sqrt a (Rlt_le _ _ A)) as QA. pose proof (sqrt_sqrt b (Rlt_le _ _ B)) as QB. pose proof (sqrt_sqrt c (Rlt_le _ _ Cc)) as QC.
  destruct t as [[x y] z]. unfold inverse_times. destruct (Req_EM_T (2 * sqrt a) 0) as [Z|_]; [exfalso; lra|]. destruct (Req_EM_T (2 * sqrt b) 0) as [Z|_]; [exfalso; lra|]. destruct (Req_EM_T (2 * sqrt c) 0) as [Z|_]; [exfalso; lra|].
  cbn [option_map]. eexists. split; [reflexivity|]. rewrite orth_dot by exact O. unfold vdot. rewrite <- QA at 3. rewrite <- QB at 3. rewrite <- QC at 3. field. lra.
Qed.
Lemma size_depends C t e : decomposes C (eig C) -> definite C -> normalised_error eig C t = Some e -> deviates C (mapply (fst (eig C)) t) (4 * vdot e e).
Proof.
  intros De D H. destruct (normalised_size C t De D) as (e' & He & S). rewrite He in H. injection H as <-. destruct De as [O E]. destruct (eig C) as [v d]. cbn [fst snd] in *. pose proof (definite_values C v d O E D) as P. destruct d as [[a b] c]. destruct P as (A & B & Cc). destruct t as [[x y] z].
  exists (mapply v (x / a, y / b, z / c)). rewrite (decomposed_apply _ _ _ _ E), orth_back, orth_dot, S by exact O. split; [f_equal; unfold times; tup; field; lra|]. unfold vdot. field. lra.
Qed.
Lemma aligned_axes C t e : decomposes C (eig C) -> definite C -> fst (eig C) = mI -> normalised_error eig C t = Some e -> deviates C t (4 * vdot e e).
Proof. intros De D I H. pose proof (size_depends C t e De D H) as S. rewrite I, mapply_I in S. exact S. Qed.
Lemma no_variance C t : (exists i, (i < 3)%nat /\ vget (snd (eig C)) i <= 0) -> normalised_error eig C t = None.
Proof.
  intros (i & Hi & N). unfold normalised_error. pose proof (clamped 2 (snd (eig C)) i Hi) as E. rewrite Rmax_right, sqrt_0, Rmult_0_r in E by exact N. destruct (deviations 2 (snd (eig C))) as [[a b] c]. destruct t as [[x y] z]. unfold inverse_times.
  destruct (Req_EM_T a 0) as [|Na]; [reflexivity|]. destruct (Req_EM_T b 0) as [|Nb]; [reflexivity|]. destruct (Req_EM_T c 0) as [|Nc]; [reflexivity|]. exfalso. destruct i as [|[|[|i]]]; cbn [vget] in E; try contradiction; lia.
Qed.
Lemma printed_last l d : l <> [] -> printed l = if inside (last l d) then 1 else 0.
Proof. intros N. unfold printed. assert (E : last l None = last l d). { induction l as [|a [|b l] IH]; [contradiction|reflexivity|]. cbn [last] in *. apply IH. discriminate. } rewrite E. destruct (last l d) as [e|]; reflexivity. Qed.
End Ellipsoid.
