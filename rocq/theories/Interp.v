(* Interpolation in time. serpent/include/serpent/utils/utilities-inl.hpp 8-18 (UI), serpent/src/utils/utilities.cpp 55-65 (UT),
   eigen_ros/src/imu.cpp 69-96 (IM), eigen_ext/include/eigen_ext/matrix.hpp 110-114 (MX).
   Times are nanoseconds; double is read as R, so the factor of toSec() cancels in the ratio. *)
From Coq Require Import Reals Lra Lia Psatz.
From Verif Require Import Base.
Open Scope R_scope.
Ltac conj := repeat match goal with |- _ /\ _ => split end.

Definition ratio (t1 t2 t : Z) : R := IZR (t - t1) / IZR (t2 - t1).
(* MX 110-114 *)
Definition mix (x v1 v2 : R) : R := (1 - x) * v1 + x * v2.
(* UI 8-18 *)
Definition interpolate (v1 v2 : R) (t1 t2 t : Z) : res R :=
  if ((t2 <=? t1) || (t <? t1) || (t2 <? t))%Z then Throw else Ok (mix (ratio t1 t2 t) v1 v2).

(* sensor_msgs::FluidPressure *)
Record pressure := mkP { p_stamp : Z; p_frame : Z; p_val : R; p_var : R }.
(* UT 55-65 *)
Definition interpolate_pressure (a b : pressure) (t : Z) : res pressure :=
  rbind (interpolate (p_val a) (p_val b) (p_stamp a) (p_stamp b) t) (fun v =>
  rbind (interpolate (p_var a) (p_var b) (p_stamp a) (p_stamp b) t) (fun w => Ok (mkP t (p_frame a) v w))).

(* Eigen: Vector3d, Quaterniond (w x y z) *)
Notation vec3 := (R * R * R)%type.
Notation quat := (R * R * R * R)%type.
Definition mix3 (x : R) (a b : vec3) : vec3 :=
  let '(a0, a1, a2) := a in let '(b0, b1, b2) := b in (mix x a0 b0, mix x a1 b1, mix x a2 b2).
Definition qdot (p q : quat) : R := let '(a, b, c, d) := p in let '(e, f, g, h) := q in a * e + b * f + c * g + d * h.
Definition qlin (x y : R) (p q : quat) : quat :=
  let '(a, b, c, d) := p in let '(e, f, g, h) := q in (x * a + y * e, x * b + y * f, x * c + y * g, x * d + y * h).
(* Eigen 3.3 Quaternion.h, slerp; eps = NumTraits<double>::epsilon() *)
Definition slerp (eps : R) (x : R) (p q : quat) : quat :=
  let d := qdot p q in
  let ad := Rabs d in
  let '(s0, s1) :=
    if Rle_dec (1 - eps) ad then (1 - x, x)
    else let th := acos ad in (sin ((1 - x) * th) / sin th, sin (x * th) / sin th) in
  let s1 := if Rlt_dec d 0 then - s1 else s1 in
  qlin s0 s1 p q.

Record imu_msg := mkI { m_q : quat; m_w : vec3; m_a : vec3; m_covs : Z; m_t : Z; m_frame : Z }.   (* the three covariances are opaque *)
Definition qzero : quat := (0, 0, 0, 0).
Definition quat_dec (p q : quat) : {p = q} + {p <> q}.
Proof. repeat decide equality; apply Req_EM_T. Defined.
(* IM 69-96 *)
Definition interpolate_imu (eps : R) (a b : imu_msg) (t : Z) : res imu_msg :=
  if ((t <? m_t a) || (m_t b <? t))%Z then Throw else
  if (m_t a =? m_t b)%Z then Ok a else
  let x := ratio (m_t a) (m_t b) t in
  Ok (mkI (if quat_dec (m_q a) qzero then qzero else if quat_dec (m_q b) qzero then qzero else slerp eps x (m_q a) (m_q b))
          (mix3 x (m_w a) (m_w b)) (mix3 x (m_a a) (m_a b))
          (if Rle_dec x (1/2) then m_covs a else m_covs b) t (if Rle_dec x (1/2) then m_frame a else m_frame b)).

(* ---- proofs ---- *)
Definition between (a b x : R) : Prop := Rmin a b <= x <= Rmax a b.
Lemma mix_between x a b : 0 <= x <= 1 -> between a b (mix x a b).
Proof. intros H. unfold between, mix, Rmin, Rmax. destruct (Rle_dec a b); split; nra. Qed.
Lemma mix_0 a b : mix 0 a b = a. Proof. unfold mix. ring. Qed.
Lemma mix_1 a b : mix 1 a b = b. Proof. unfold mix. ring. Qed.
Lemma ratio_range t1 t2 t : (t1 < t2)%Z -> (t1 <= t <= t2)%Z -> 0 <= ratio t1 t2 t <= 1.
Proof.
  intros H [H1 H2]. unfold ratio. assert (0 < IZR (t2 - t1)) by (apply IZR_lt; lia). assert (0 <= IZR (t - t1)) by (apply IZR_le; lia). assert (IZR (t - t1) <= IZR (t2 - t1)) by (apply IZR_le; lia).
  split; [apply Rmult_le_pos; [assumption|left; apply Rinv_0_lt_compat; assumption]|]. apply (Rmult_le_reg_r (IZR (t2 - t1))); [assumption|]. unfold Rdiv. rewrite Rmult_assoc, Rinv_l by lra. lra.
Qed.
Lemma ratio_start t1 t2 : ratio t1 t2 t1 = 0. Proof. unfold ratio. rewrite Z.sub_diag. unfold Rdiv. ring. Qed.
Lemma ratio_end t1 t2 : (t1 < t2)%Z -> ratio t1 t2 t2 = 1.
Proof. intros H. unfold ratio. field. apply not_0_IZR. lia. Qed.

Lemma interpolate_defined v1 v2 t1 t2 t : interpolate v1 v2 t1 t2 t <> UB /\ (interpolate v1 v2 t1 t2 t = Throw <-> ~ (t1 < t2 /\ t1 <= t <= t2)%Z).
Proof. unfold interpolate. destruct ((t2 <=? t1) || (t <? t1) || (t2 <? t))%Z eqn:E; split; try discriminate; split; try discriminate; intros; try reflexivity; lia. Qed.
Lemma interpolate_ok v1 v2 t1 t2 t : (t1 < t2)%Z -> (t1 <= t <= t2)%Z -> interpolate v1 v2 t1 t2 t = Ok (mix (ratio t1 t2 t) v1 v2).
Proof. intros H1 H2. unfold interpolate. replace ((t2 <=? t1) || (t <? t1) || (t2 <? t))%Z with false by lia. reflexivity. Qed.
(* independent description: v is on the line through (t1, v1) and (t2, v2) *)
Definition on_line (t1 : Z) (v1 : R) (t2 : Z) (v2 : R) (t : Z) (v : R) : Prop := (v - v1) * IZR (t2 - t1) = (v2 - v1) * IZR (t - t1).
Lemma mix_line v1 v2 t1 t2 t : (t1 < t2)%Z -> on_line t1 v1 t2 v2 t (mix (ratio t1 t2 t) v1 v2).
Proof. intros H. unfold on_line, mix, ratio. field. apply not_0_IZR. lia. Qed.
Lemma line_unique t1 v1 t2 v2 t v w : (t1 < t2)%Z -> on_line t1 v1 t2 v2 t v -> on_line t1 v1 t2 v2 t w -> v = w.
Proof. unfold on_line. intros H A B. assert (0 < IZR (t2 - t1)) by (apply IZR_lt; lia). nra. Qed.
Lemma mix_mono v1 v2 t1 t2 t t' : (t1 < t2)%Z -> v1 <= v2 -> (t <= t')%Z -> mix (ratio t1 t2 t) v1 v2 <= mix (ratio t1 t2 t') v1 v2.
Proof.
  intros H Hv Ht. assert (ratio t1 t2 t <= ratio t1 t2 t').
  { unfold ratio, Rdiv. apply Rmult_le_compat_r; [left; apply Rinv_0_lt_compat; apply IZR_lt; lia|]. apply IZR_le. lia. }
  unfold mix. nra.
Qed.

Lemma interpolation v1 v2 t1 t2 t : (t1 < t2)%Z -> (t1 <= t <= t2)%Z ->
  exists v, interpolate v1 v2 t1 t2 t = Ok v /\ on_line t1 v1 t2 v2 t v /\ between v1 v2 v /\ (t = t1 -> v = v1) /\ (t = t2 -> v = v2) /\
    (forall a b : R, v1 = a * IZR t1 + b -> v2 = a * IZR t2 + b -> v = a * IZR t + b) /\
    (forall t', (t <= t' <= t2)%Z -> v1 <= v2 -> exists v', interpolate v1 v2 t1 t2 t' = Ok v' /\ v <= v').
Proof.
  intros H Ht. exists (mix (ratio t1 t2 t) v1 v2). split; [apply interpolate_ok; assumption|]. split; [apply mix_line; assumption|]. split; [apply mix_between, ratio_range; assumption|].
  split; [intros ->; rewrite ratio_start; apply mix_0|]. split; [intros ->; rewrite ratio_end by assumption; apply mix_1|]. split.
  - intros a b -> ->. apply (line_unique t1 (a * IZR t1 + b) t2 (a * IZR t2 + b) t); [assumption|apply mix_line; assumption|]. unfold on_line. rewrite !minus_IZR. ring.
  - intros t' Ht' Hv. exists (mix (ratio t1 t2 t') v1 v2). split; [apply interpolate_ok; lia|apply mix_mono; [assumption|assumption|lia]].
Qed.

Lemma pressure_interpolation a b t : (p_stamp a < p_stamp b)%Z -> (p_stamp a <= t <= p_stamp b)%Z ->
  exists p, interpolate_pressure a b t = Ok p /\ p_stamp p = t /\ p_frame p = p_frame a /\ on_line (p_stamp a) (p_val a) (p_stamp b) (p_val b) t (p_val p) /\
    between (p_val a) (p_val b) (p_val p) /\ on_line (p_stamp a) (p_var a) (p_stamp b) (p_var b) t (p_var p) /\ (0 <= p_var a -> 0 <= p_var b -> 0 <= p_var p).
Proof.
  intros H Ht. unfold interpolate_pressure. rewrite !interpolate_ok by assumption. cbn [rbind]. eexists. split; [reflexivity|]. cbn [p_stamp p_frame p_val p_var].
  conj; auto; try (apply mix_line; assumption); [apply mix_between, ratio_range; assumption|]. intros V1 V2. pose proof (ratio_range _ _ _ H Ht). unfold mix. nra.
Qed.

(* ---- slerp ---- *)
Lemma sin_sum x th : Rsqr (sin ((1 - x) * th)) + Rsqr (sin (x * th)) + 2 * sin ((1 - x) * th) * sin (x * th) * cos th = Rsqr (sin th).
Proof.
  set (a := (1 - x) * th). set (b := x * th). replace th with (a + b) by (unfold a, b; ring). rewrite cos_plus, sin_plus. unfold Rsqr.
  pose proof (sin2_cos2 a) as Ha. pose proof (sin2_cos2 b) as Hb. unfold Rsqr in *.
  assert (cos a * cos a = 1 - sin a * sin a) by lra. assert (cos b * cos b = 1 - sin b * sin b) by lra.
  transitivity (sin a * sin a * (1 - sin b * sin b) + sin b * sin b * (1 - sin a * sin a) + 2 * (sin a * sin b * cos a * cos b)); [ring|]. rewrite <- H, <- H0. ring.
Qed.
Lemma qdot_lin x y p q : qdot (qlin x y p q) (qlin x y p q) = x * x * qdot p p + y * y * qdot q q + 2 * x * y * qdot p q.
Proof. destruct p as [[[? ?] ?] ?], q as [[[? ?] ?] ?]. unfold qlin, qdot. ring. Qed.
Lemma qdot_abs p q : qdot p p = 1 -> qdot q q = 1 -> Rabs (qdot p q) <= 1.
Proof.
  intros Hp Hq. pose proof (qdot_lin 1 1 p q) as A. pose proof (qdot_lin 1 (-1) p q) as B.
  assert (P : forall r, 0 <= qdot r r). { intros [[[a b] c] d]. unfold qdot. nra. }
  pose proof (P (qlin 1 1 p q)). pose proof (P (qlin 1 (-1) p q)). rewrite Hp, Hq in *. unfold Rabs. destruct (Rcase_abs (qdot p q)); lra.
Qed.
(* unit quaternions which are not almost (anti)parallel: the result is a unit quaternion *)
Lemma slerp_unit eps x p q : 0 < eps -> qdot p p = 1 -> qdot q q = 1 -> Rabs (qdot p q) < 1 - eps -> qdot (slerp eps x p q) (slerp eps x p q) = 1.
Proof.
  intros He Hp Hq Hd. unfold slerp. destruct (Rle_dec (1 - eps) (Rabs (qdot p q))); [lra|]. set (ad := Rabs (qdot p q)) in *. set (th := acos ad).
  assert (H0 : 0 <= ad) by (apply Rabs_pos). assert (Hc : cos th = ad) by (apply cos_acos; lra).
  assert (Hs : sin th <> 0). { intros E. pose proof (sin2_cos2 th) as S. rewrite E, Hc in S. unfold Rsqr in S. nra. }
  assert (G : forall s, (s = 1 /\ qdot p q = ad) \/ (s = -1 /\ qdot p q = - ad) -> qdot (qlin (sin ((1 - x) * th) / sin th) (s * (sin (x * th) / sin th)) p q) (qlin (sin ((1 - x) * th) / sin th) (s * (sin (x * th) / sin th)) p q) = 1).
  { intros s Hss. rewrite qdot_lin, Hp, Hq. assert (E : s * s = 1 /\ s * qdot p q = cos th) by (rewrite Hc; destruct Hss as [[-> ->]|[-> ->]]; lra). destruct E as [E1 E2].
    pose proof (sin_sum x th) as S. unfold Rsqr in S.
    transitivity ((sin ((1 - x) * th) * sin ((1 - x) * th) + (s * s) * (sin (x * th) * sin (x * th)) + 2 * sin ((1 - x) * th) * sin (x * th) * (s * qdot p q)) / (sin th * sin th)); [field; exact Hs|].
    rewrite E1, E2. rewrite Rmult_1_l, S. field. exact Hs. }
  destruct (Rlt_dec (qdot p q) 0).
  - replace (- (sin (x * th) / sin th)) with (-1 * (sin (x * th) / sin th)) by ring. apply G. right. split; [reflexivity|]. unfold ad. rewrite Rabs_left; lra.
  - replace (sin (x * th) / sin th) with (1 * (sin (x * th) / sin th)) by ring. apply G. left. split; [reflexivity|]. unfold ad. rewrite Rabs_right; lra.
Qed.
Definition qneg (q : quat) : quat := let '(a, b, c, d) := q in (- a, - b, - c, - d).
Lemma qlin_10 p q : qlin 1 0 p q = p. Proof. destruct p as [[[? ?] ?] ?], q as [[[? ?] ?] ?]. unfold qlin. repeat f_equal; ring. Qed.
Lemma qlin_01 p q : qlin 0 1 p q = q. Proof. destruct p as [[[? ?] ?] ?], q as [[[? ?] ?] ?]. unfold qlin. repeat f_equal; ring. Qed.
Lemma qlin_0m p q : qlin 0 (-(1)) p q = qneg q. Proof. destruct p as [[[? ?] ?] ?], q as [[[? ?] ?] ?]. unfold qlin, qneg. repeat f_equal; ring. Qed.
(* at the ends: the first orientation, and the second up to sign (the same rotation) *)
Lemma slerp_ends eps p q : 0 < eps -> qdot p p = 1 -> qdot q q = 1 -> slerp eps 0 p q = p /\ (slerp eps 1 p q = q \/ slerp eps 1 p q = qneg q).
Proof.
  intros He Hp Hq. unfold slerp. pose proof (qdot_abs p q Hp Hq) as Ha. set (ad := Rabs (qdot p q)) in *. destruct (Rle_dec (1 - eps) ad) as [L|L].
  - rewrite Rminus_0_r, Rminus_eq_0. split; destruct (Rlt_dec (qdot p q) 0); rewrite ?Ropp_0; auto using qlin_10, qlin_01, qlin_0m.
  - set (th := acos ad). assert (H0 : 0 <= ad) by (apply Rabs_pos). assert (Hc : cos th = ad) by (apply cos_acos; lra).
    assert (Hs : sin th <> 0). { intros E. pose proof (sin2_cos2 th) as S. rewrite E, Hc in S. unfold Rsqr in S. nra. }
    rewrite Rminus_0_r, Rminus_eq_0, !Rmult_1_l, !Rmult_0_l, sin_0. replace (sin th / sin th) with 1 by (field; exact Hs). replace (0 / sin th) with 0 by (field; exact Hs).
    split; destruct (Rlt_dec (qdot p q) 0); rewrite ?Ropp_0; auto using qlin_10, qlin_01, qlin_0m.
Qed.

(* ---- C49 ---- *)
Definition between3 (a b x : vec3) : Prop :=
  let '(a0, a1, a2) := a in let '(b0, b1, b2) := b in let '(x0, x1, x2) := x in between a0 b0 x0 /\ between a1 b1 x1 /\ between a2 b2 x2.
Definition on_line3 (t1 : Z) (a : vec3) (t2 : Z) (b : vec3) (t : Z) (x : vec3) : Prop :=
  let '(a0, a1, a2) := a in let '(b0, b1, b2) := b in let '(x0, x1, x2) := x in on_line t1 a0 t2 b0 t x0 /\ on_line t1 a1 t2 b1 t x1 /\ on_line t1 a2 t2 b2 t x2.
Lemma mix3_spec a b t1 t2 t : (t1 < t2)%Z -> (t1 <= t <= t2)%Z -> between3 a b (mix3 (ratio t1 t2 t) a b) /\ on_line3 t1 a t2 b t (mix3 (ratio t1 t2 t) a b).
Proof.
  intros H Ht. destruct a as [[a0 a1] a2], b as [[b0 b1] b2]. cbn. pose proof (ratio_range _ _ _ H Ht). conj; try (apply mix_between; assumption); apply mix_line; assumption.
Qed.
Lemma imu_defined eps a b t : interpolate_imu eps a b t <> UB /\ (interpolate_imu eps a b t = Throw <-> ~ (m_t a <= t <= m_t b)%Z).
Proof.
  unfold interpolate_imu. destruct ((t <? m_t a) || (m_t b <? t))%Z eqn:E; [split; [discriminate|]; split; [lia|reflexivity]|]. destruct (m_t a =? m_t b)%Z; split; try discriminate; split; try discriminate; lia.
Qed.
Lemma mix3_0 a b : mix3 0 a b = a. Proof. destruct a as [[? ?] ?], b as [[? ?] ?]. cbn. rewrite !mix_0. reflexivity. Qed.
Lemma mix3_1 a b : mix3 1 a b = b. Proof. destruct a as [[? ?] ?], b as [[? ?] ?]. cbn. rewrite !mix_1. reflexivity. Qed.
Lemma imu_interpolation eps a b t : 0 < eps -> (m_t a < m_t b)%Z -> (m_t a <= t <= m_t b)%Z -> exists r, interpolate_imu eps a b t = Ok r /\ m_t r = t /\
  between3 (m_w a) (m_w b) (m_w r) /\ between3 (m_a a) (m_a b) (m_a r) /\ on_line3 (m_t a) (m_w a) (m_t b) (m_w b) t (m_w r) /\ on_line3 (m_t a) (m_a a) (m_t b) (m_a b) t (m_a r) /\
  ((2 * (t - m_t a) <= m_t b - m_t a)%Z -> m_covs r = m_covs a /\ m_frame r = m_frame a) /\
  ((m_t b - m_t a < 2 * (t - m_t a))%Z -> m_covs r = m_covs b /\ m_frame r = m_frame b) /\
  ((m_q a = qzero \/ m_q b = qzero) -> m_q r = qzero) /\
  (qdot (m_q a) (m_q a) = 1 -> qdot (m_q b) (m_q b) = 1 ->
     (Rabs (qdot (m_q a) (m_q b)) < 1 - eps -> qdot (m_q r) (m_q r) = 1) /\ (t = m_t a -> m_q r = m_q a) /\ (t = m_t b -> m_q r = m_q b \/ m_q r = qneg (m_q b))).
Proof.
  intros He H Ht. unfold interpolate_imu. replace ((t <? m_t a) || (m_t b <? t))%Z with false by lia. replace (m_t a =? m_t b)%Z with false by lia. eexists. split; [reflexivity|].
  cbn [m_t m_w m_a m_covs m_frame m_q]. destruct (mix3_spec (m_w a) (m_w b) _ _ _ H Ht) as [W1 W2]. destruct (mix3_spec (m_a a) (m_a b) _ _ _ H Ht) as [A1 A2]. conj; auto.
  - intros L. destruct (Rle_dec _ _) as [?|N]; [auto|]. exfalso. apply N. unfold ratio. assert (0 < IZR (m_t b - m_t a)) by (apply IZR_lt; lia).
    apply (Rmult_le_reg_r (IZR (m_t b - m_t a))); [assumption|]. unfold Rdiv at 1. rewrite Rmult_assoc, Rinv_l by lra. apply IZR_le in L. rewrite mult_IZR in L. lra.
  - intros L. destruct (Rle_dec _ _) as [N|?]; [|auto]. exfalso. unfold ratio in N. assert (0 < IZR (m_t b - m_t a)) by (apply IZR_lt; lia).
    apply (Rmult_le_compat_r (IZR (m_t b - m_t a))) in N; [|lra]. unfold Rdiv at 1 in N. rewrite Rmult_assoc, Rinv_l in N by lra. apply IZR_lt in L. rewrite mult_IZR in L. lra.
  - intros [->|E]; [destruct (quat_dec qzero qzero); congruence|]. destruct (quat_dec (m_q a) qzero); [reflexivity|]. destruct (quat_dec (m_q b) qzero); congruence.
  - intros Hp Hq. assert (Z0 : qdot qzero qzero = 0) by (unfold qdot, qzero; ring). destruct (quat_dec (m_q a) qzero) as [E|_]; [rewrite E in Hp; lra|]. destruct (quat_dec (m_q b) qzero) as [E|_]; [rewrite E in Hq; lra|].
    conj; [intros Hd; apply slerp_unit; assumption|intros ->; rewrite ratio_start; apply slerp_ends; assumption|intros ->; rewrite ratio_end by assumption; apply slerp_ends; assumption].
Qed.

Example interpolate_case : interpolate 1 3 0 10 5 = Ok 2.
Proof. rewrite interpolate_ok by lia. unfold mix, ratio. f_equal. cbn. lra. Qed.
Example imu_case : exists r, interpolate_imu (1/1000) (mkI (1, 0, 0, 0) (0, 2, 0) (1, 1, 1) 1 0 7) (mkI (0, 1, 0, 0) (4, 2, 2) (1, 0, 1) 2 10 8) 5 = Ok r /\
  qdot (m_q r) (m_q r) = 1 /\ m_covs r = 1%Z /\ m_frame r = 7%Z.
Proof.
  set (a := mkI (1, 0, 0, 0) (0, 2, 0) (1, 1, 1) 1 0 7). set (b := mkI (0, 1, 0, 0) (4, 2, 2) (1, 0, 1) 2 10 8).
  destruct (imu_interpolation (1/1000) a b 5) as (r & E & _ & _ & _ & _ & _ & H1 & _ & _ & H2); [lra|cbn; lia|cbn; lia|]. exists r. split; [exact E|]. split; [|apply H1; cbn; lia].
  destruct H2 as (H2 & _); [unfold a, qdot; cbn; lra|unfold b, qdot; cbn; lra|]. apply H2. unfold a, b, qdot. cbn. rewrite Rabs_right; lra.
Qed.
