(* What PrecomputedTransformComponents keeps of a rigid motion: its rotation vector, of length at most pi, with sine and cosine of the angle. *)
From Coq Require Import Reals Lra Lia Psatz.
From Verif Require Import Base Mx Interp Geo EgModel EgProofs RcModel RcSpec RcDeriv RcTurn RcProofs.
Open Scope R_scope.

Lemma half_angle n w : 0 < n -> n * n + w * w = 1 -> sin (atan2_pos n (Rabs w)) = n /\ cos (atan2_pos n (Rabs w)) = Rabs w /\ 0 < atan2_pos n (Rabs w) <= PI / 2.
Proof.
  intros P U. unfold atan2_pos. destruct (Req_EM_T (Rabs w) 0) as [E|NE].
  - rewrite sin_PI2, cos_PI2, E. assert (w = 0) by (destruct (Req_dec w 0) as [H|H]; [exact H|apply Rabs_no_R0 in H; contradiction]). subst w. pose proof PI_RGT_0. split; [nra|]. split; [reflexivity|lra].
  - assert (W : 0 < Rabs w) by (pose proof (Rabs_pos w); lra). assert (W2 : Rabs w * Rabs w = w * w) by (rewrite <- Rabs_mult; apply Rabs_pos_eq; nra).
    assert (S : sqrt (1 + Rsqr (n / Rabs w)) = / Rabs w).
    { replace (1 + Rsqr (n / Rabs w)) with (/ Rabs w * / Rabs w).
      - apply sqrt_square. left. apply Rinv_0_lt_compat. exact W.
      - unfold Rsqr. apply (Rmult_eq_reg_r (Rabs w * Rabs w)); [|nra]. field_simplify; [|exact NE|exact NE]. replace (Rabs w ^ 2) with (Rabs w * Rabs w) by ring. nra. }
    rewrite sin_atan, cos_atan, S. split; [field; exact NE|]. split; [field; exact NE|]. pose proof (atan_bound (n / Rabs w)). split; [|lra].
    assert (0 < n / Rabs w) by (apply Rdiv_lt_0_compat; assumption). rewrite <- atan_0. apply atan_increasing. assumption.
Qed.

Lemma components_q q t : qunit q -> let '(a, u) := angle_axis q in
  exists r, mkComps (vscale a u) t a (sin a) (cos a) = components_rt r t /\ vnorm r <= PI /\ (vnorm r = 0 <-> qmat q = mI) /\
  (vnorm r <> 0 -> forall p, turn r p = mapply (qmat q) p).
Proof.
  intros U. destruct q as [[[w x] y] z]. unfold angle_axis. set (n := vnorm (x, y, z)). assert (N2 : n * n = x * x + y * y + z * z) by (unfold n; rewrite norm_sq; cbn; ring).
  assert (N0 : 0 <= n) by apply sqrt_pos. assert (U2 : n * n + w * w = 1) by (unfold qunit in U; cbn in U; nra).
  destruct (Req_EM_T n 0) as [E|NE].
  - exists v0. assert (V0 : vnorm v0 = 0) by (unfold vnorm, v0; cbn; replace (0 * 0 + 0 * 0 + 0 * 0) with 0 by ring; apply sqrt_0).
    assert (x = 0) by nra. assert (y = 0) by nra. assert (z = 0) by nra. subst x y z. pose proof PI_RGT_0.
    split; [unfold components_rt; rewrite V0; f_equal; unfold v0; cbn; tup; ring|]. rewrite V0. split; [lra|]. split; [|intros H'; exfalso; apply H'; reflexivity].
    split; [intros _|reflexivity]. rewrite E in U2. unfold qmat, mI. tup; nra.
  - assert (P : 0 < n) by lra. destruct (half_angle n w P U2) as (S & C & B). set (h := atan2_pos n (Rabs w)) in *.
    set (u := vscale (/ (if Rlt_dec w 0 then - n else n)) (x, y, z)).
    assert (W2 : Rabs w * Rabs w = w * w) by (rewrite <- Rabs_mult; apply Rabs_pos_eq; nra).
    assert (UN : vdot u u = 1).
    { transitivity ((x * x + y * y + z * z) / (n * n)); [unfold u; destruct (Rlt_dec w 0); cbn; field; lra|]. rewrite <- N2. field. lra. }
    assert (RN : vnorm (vscale (2 * h) u) = 2 * h).
    { unfold vnorm. replace (vdot (vscale (2 * h) u) (vscale (2 * h) u)) with ((2 * h) * (2 * h) * vdot u u) by (destruct u as [[? ?] ?]; cbn; ring). rewrite UN, Rmult_1_r. apply sqrt_square. lra. }
    assert (AX : axis (vscale (2 * h) u) = u).
    { unfold axis. rewrite RN. destruct u as [[? ?] ?]. cbn. tup; field; lra. }
    exists (vscale (2 * h) u). split; [unfold components_rt; rewrite RN; reflexivity|]. rewrite RN. split; [lra|].
    assert (C2 : cos (2 * h) = w * w - n * n) by (rewrite cos_2a, S, C; lra).
    assert (S2 : sin (2 * h) = 2 * (n * Rabs w)) by (rewrite sin_2a, S, C; ring).
    split.
    + split; [intros; lra|]. intros Q. exfalso. unfold qmat, mI in Q. inversion Q. assert (y * y + z * z = 0) by lra. assert (x * x + z * z = 0) by lra. nra.
    + intros _ p. unfold turn. rewrite RN, AX, C2, S2.
      assert (SG : vscale (2 * (n * Rabs w)) u = vscale (2 * w) (x, y, z)).
      { unfold u, Rabs. destruct (Rlt_dec w 0) as [L|L]; destruct (Rcase_abs w) as [L'|L']; try lra; cbn; tup; field; lra. }
      assert (OU : forall p, vscale ((1 - (w * w - n * n)) * vdot u p) u = vscale (2 * vdot (x, y, z) p) (x, y, z)).
      { intros p0. replace (1 - (w * w - n * n)) with (2 * (n * n)) by lra. unfold u. destruct p0 as [[p1 p2] p3]. destruct (Rlt_dec w 0); cbn; tup; field; lra. }
      rewrite OU. replace (vscale (2 * (n * Rabs w)) (vcross u p)) with (vcross (vscale (2 * (n * Rabs w)) u) p) by (clear; vring). rewrite SG. rewrite N2.
      assert (U3 : w * w = 1 - x * x - y * y - z * z) by lra. rewrite U3. destruct p as [[p1 p2] p3]. clear. cbn. tup; ring.
Qed.
Lemma components_motion m : motion m -> exists r, components m = components_rt r (tr m) /\ vnorm r <= PI /\ (vnorm r = 0 <-> lin m = mI) /\ (vnorm r <> 0 -> forall p, turn r p = mapply (lin m) p).
Proof.
  intros M. destruct (quat_of_spec (lin m) M) as [E U]. pose proof (components_q (quat_of (lin m)) (tr m) U) as K. unfold components. rewrite E in K. destruct (angle_axis (quat_of (lin m))) as [a u]. exact K.
Qed.
