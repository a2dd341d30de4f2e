(* Rotation vectors stand for the rotations the code takes them for. *)
From Coq Require Import Reals Lra Lia Psatz.
From Verif Require Import Base Mx Interp Geo EgModel EgProofs RcModel RcSpec RcProofs RcComp RoModel RoSpec.
Open Scope R_scope.

Lemma dl_eq f x l m : l = m -> derivable_pt_lim f x l -> derivable_pt_lim f x m. Proof. intros ->. exact (fun h => h). Qed.
Lemma dl_ext f g x l : (forall y, f y = g y) -> derivable_pt_lim f x l -> derivable_pt_lim g x l.
Proof. intros E H eps He. destruct (H eps He) as [d D]. exists d. intros h A B. rewrite <- !E. apply D; assumption. Qed.
Lemma flat f : (forall s, derivable_pt_lim f s 0) -> forall s, f s = f 0.
Proof.
  intros D s. assert (P : derivable f) by (intros x; exists 0; apply D).
  assert (C : constant f) by (apply (null_derivative_1 f P); intros x; apply derive_pt_eq_0; apply D). apply C.
Qed.
Lemma sq3 a b c : a * a + b * b + c * c = 0 -> a = 0 /\ b = 0 /\ c = 0.
Proof. intros H. pose proof (Rle_0_sqr a). pose proof (Rle_0_sqr b). pose proof (Rle_0_sqr c). unfold Rsqr in *. assert (a * a = 0) by lra. assert (b * b = 0) by lra. assert (c * c = 0) by lra.
  repeat split; (apply Rsqr_0_uniq; unfold Rsqr; assumption). Qed.
Lemma sq4 a b c d : a * a + b * b + c * c + d * d = 0 -> a = 0 /\ b = 0 /\ c = 0 /\ d = 0.
Proof. intros H. pose proof (Rle_0_sqr d) as D. unfold Rsqr in D. pose proof (Rle_0_sqr a). pose proof (Rle_0_sqr b). pose proof (Rle_0_sqr c). unfold Rsqr in *.
  destruct (sq3 a b c) as (A & B & C); [lra|]. repeat split; try assumption. apply Rsqr_0_uniq. unfold Rsqr. lra. Qed.
(* the law of motion determines the path *)
Lemma turns_unique w p X Y : turns w p X -> turns w p Y -> forall s, X s = Y s.
Proof.
  intros [X0 MX] [Y0 MY] s.
  set (f := fun s => (fst (fst (X s)) - fst (fst (Y s))) * (fst (fst (X s)) - fst (fst (Y s))) + (snd (fst (X s)) - snd (fst (Y s))) * (snd (fst (X s)) - snd (fst (Y s))) + (snd (X s) - snd (Y s)) * (snd (X s) - snd (Y s))).
  assert (D : forall t, derivable_pt_lim f t 0).
  { intros t. specialize (MX t). specialize (MY t). cbv beta in MX, MY. destruct w as [[w1 w2] w3]. destruct (X t) as [[x y] z] eqn:Ex. destruct (Y t) as [[x' y'] z'] eqn:Ey. cbn [vcross] in MX, MY.
    destruct MX as (A1 & A2 & A3). destruct MY as (B1 & B2 & B3).
    pose proof (derivable_pt_lim_minus _ _ _ _ _ A1 B1) as D1. pose proof (derivable_pt_lim_minus _ _ _ _ _ A2 B2) as D2. pose proof (derivable_pt_lim_minus _ _ _ _ _ A3 B3) as D3.
    pose proof (derivable_pt_lim_plus _ _ _ _ _ (derivable_pt_lim_plus _ _ _ _ _ (derivable_pt_lim_mult _ _ _ _ _ D1 D1) (derivable_pt_lim_mult _ _ _ _ _ D2 D2)) (derivable_pt_lim_mult _ _ _ _ _ D3 D3)) as D.
    eapply dl_eq; [|exact D]. unfold minus_fct. rewrite Ex, Ey. cbn [fst snd]. ring. }
  pose proof (flat f D s) as F. assert (F0 : f 0 = 0) by (unfold f; rewrite X0, Y0; ring). rewrite F0 in F. unfold f in F. clear D F0 MX MY.
  destruct (X s) as [[x y] z], (Y s) as [[x' y'] z']. cbn [fst snd] in F.
  apply sq3 in F. destruct F as (F1 & F2 & F3). tup; lra.
Qed.

(* turning with angular velocity a u for time s is the matrix of angle s a about u *)
Lemma spin_turns a u p : vdot u u = 1 -> turns (vscale a u) p (fun s => mapply (aa_matrix (s * a) u) p).
Proof.
  intros U. destruct u as [[x y] z], p as [[p1 p2] p3]. cbn in U. split.
  - unfold aa_matrix. rewrite Rmult_0_l, sin_0, cos_0. cbn. tup; ring.
  - intros s. set (S := s * a).
    assert (DS : derivable_pt_lim (fun s => sin (s * a)) s (cos S * a)).
    { pose proof (derivable_pt_lim_comp (fun s => s * a) sin s a (cos S)) as K. apply K; [|apply derivable_pt_lim_sin].
      eapply dl_eq; [|apply (derivable_pt_lim_mult (fun s => s) (fun _ => a)); [apply derivable_pt_lim_id|apply derivable_pt_lim_const]]. cbn. ring. }
    assert (DC : derivable_pt_lim (fun s => cos (s * a)) s (- sin S * a)).
    { pose proof (derivable_pt_lim_comp (fun s => s * a) cos s a (- sin S)) as K. apply K; [|apply derivable_pt_lim_cos].
      eapply dl_eq; [|apply (derivable_pt_lim_mult (fun s => s) (fun _ => a)); [apply derivable_pt_lim_id|apply derivable_pt_lim_const]]. cbn. ring. }
    assert (L : forall k0 k1 k2, derivable_pt_lim (fun s => k0 + k1 * cos (s * a) + k2 * sin (s * a)) s (k1 * (- sin S * a) + k2 * (cos S * a))).
    { intros k0 k1 k2. eapply dl_eq; [|apply (derivable_pt_lim_plus (fun s => k0 + k1 * cos (s * a)) (fun s => k2 * sin (s * a)))].
      - reflexivity.
      - eapply dl_eq; [|apply (derivable_pt_lim_plus (fun _ => k0) (fun s => k1 * cos (s * a))); [apply derivable_pt_lim_const|apply (derivable_pt_lim_scal (fun s => cos (s * a))); exact DC]]. ring.
      - apply (derivable_pt_lim_scal (fun s => sin (s * a))). exact DS. }
    unfold aa_matrix. fold S. cbn -[sin cos].
    assert (U1 : x * x = 1 - y * y - z * z) by lra.
    split; [|split].
    + eapply dl_eq; [|eapply dl_ext; [|apply (L ((x * p1 + y * p2 + z * p3) * x) (p1 - (x * p1 + y * p2 + z * p3) * x) (y * p3 - z * p2))]].
      * ring [U1].
      * intros t. cbn. ring.
    + eapply dl_eq; [|eapply dl_ext; [|apply (L ((x * p1 + y * p2 + z * p3) * y) (p2 - (x * p1 + y * p2 + z * p3) * y) (z * p1 - x * p3))]].
      * ring [U1].
      * intros t. cbn. ring.
    + eapply dl_eq; [|eapply dl_ext; [|apply (L ((x * p1 + y * p2 + z * p3) * z) (p3 - (x * p1 + y * p2 + z * p3) * z) (x * p2 - y * p1))]].
      * ring [U1].
      * intros t. cbn. ring.
Qed.
Lemma still_turns p : turns v0 p (fun _ => p).
Proof. split; [reflexivity|]. intros s. destruct p as [[a b] c]. cbn. repeat split; (eapply dl_eq; [|apply derivable_pt_lim_const]); ring. Qed.
Lemma aa_zero u : aa_matrix 0 u = mI. Proof. destruct u as [[x y] z]. unfold aa_matrix. rewrite sin_0, cos_0. cbn. unfold mI. tup; ring. Qed.

Lemma norm0 r : vnorm r = 0 -> r = v0.
Proof. intros E. assert (vdot r r = 0) by (unfold vnorm in E; apply sqrt_eq_0; [destruct r as [[? ?] ?]; cbn; nra|exact E]). destruct r as [[x y] z]. cbn in H. unfold v0. tup; nra. Qed.
Lemma norm_v0 : vnorm v0 = 0. Proof. unfold vnorm, v0. cbn. replace (0 * 0 + 0 * 0 + 0 * 0) with 0 by ring. apply sqrt_0. Qed.
Lemma normalized_nz r : vnorm r <> 0 -> normalized r = vscale (/ vnorm r) r /\ vdot (normalized r) (normalized r) = 1 /\ r = vscale (vnorm r) (normalized r).
Proof.
  intros N. assert (P : 0 <= vnorm r) by apply sqrt_pos. assert (D : vdot r r = vnorm r * vnorm r) by (symmetry; apply norm_sq).
  assert (E : normalized r = vscale (/ vnorm r) r) by (unfold normalized; destruct (Rlt_dec 0 (vdot r r)) as [L|L]; [reflexivity|rewrite D in L; exfalso; apply L; nra]).
  split; [exact E|]. rewrite E. split.
  - replace (vdot (vscale (/ vnorm r) r) (vscale (/ vnorm r) r)) with (/ vnorm r * / vnorm r * vdot r r) by (generalize (vnorm r); destruct r as [[? ?] ?]; intros; cbn; ring). rewrite D. field. exact N.
  - generalize (vnorm r) N. intros n Hn. destruct r as [[? ?] ?]. cbn. tup; field; exact Hn.
Qed.
(* any vector is the rotation vector of the matrix the point type returns *)
Lemma vector_turns r p : turns r p (fun s => mapply (aa_matrix (s * vnorm r) (normalized r)) p).
Proof.
  destruct (Req_dec (vnorm r) 0) as [E|N].
  - rewrite (norm0 r E) at 1. destruct (still_turns p) as [A B]. split; [rewrite Rmult_0_l, aa_zero; apply mapply_I|].
    intros s. specialize (B s). cbv beta in *. rewrite E, Rmult_0_r, aa_zero, mapply_I.
    destruct (vcross v0 p) as [[v w] x]. destruct B as (B1 & B2 & B3).
    split; [|split]; (eapply dl_ext; [|eassumption]); intros y; cbv beta; rewrite Rmult_0_r, aa_zero, mapply_I; reflexivity.
  - destruct (normalized_nz r N) as (_ & U & S). rewrite S at 1. apply spin_turns. exact U.
Qed.
Lemma vector_rotation r : rotation_vector r (aa_matrix (vnorm r) (normalized r)).
Proof. intros p X T. rewrite (turns_unique r p X _ T (vector_turns r p) 1), Rmult_1_l. reflexivity. Qed.
Lemma rotation_vector_unique r m m' : rotation_vector r m -> rotation_vector r m' -> m = m'.
Proof.
  intros A B. assert (K : forall p, mapply m p = mapply m' p) by (intros p; pose proof (vector_turns r p) as T; rewrite <- (A p _ T), <- (B p _ T); reflexivity).
  pose proof (K (1, 0, 0)) as K1. pose proof (K (0, 1, 0)) as K2. pose proof (K (0, 0, 1)) as K3. destruct m as [[[[a b] c] [[d e] f]] [[g h] i]], m' as [[[[a' b'] c'] [[d' e'] f']] [[g' h'] i']].
  cbn in K1, K2, K3. injection K1 as E1 E2 E3. injection K2 as F1 F2 F3. injection K3 as G1 G2 G3. tup; lra.
Qed.
(* time and angular velocity *)
Lemma turns_scale w p X k : turns w p X -> turns (vscale k w) p (fun s => X (s * k)).
Proof.
  intros [A B]. split; [rewrite Rmult_0_l; exact A|]. intros s. specialize (B (s * k)). cbv beta in B. destruct w as [[w1 w2] w3]. destruct (X (s * k)) as [[x y] z] eqn:E. cbn [vcross] in B. cbn [vscale vcross].
  assert (L : derivable_pt_lim (fun s => s * k) s k) by (eapply dl_eq; [|apply (derivable_pt_lim_mult (fun s => s) (fun _ => k)); [apply derivable_pt_lim_id|apply derivable_pt_lim_const]]; cbn; ring).
  destruct B as (B1 & B2 & B3). split; [|split].
  - eapply dl_eq; [|apply (derivable_pt_lim_comp (fun s => s * k) (fun s => fst (fst (X s))) s _ _ L B1)]. ring.
  - eapply dl_eq; [|apply (derivable_pt_lim_comp (fun s => s * k) (fun s => snd (fst (X s))) s _ _ L B2)]. ring.
  - eapply dl_eq; [|apply (derivable_pt_lim_comp (fun s => s * k) (fun s => snd (X s)) s _ _ L B3)]. ring.
Qed.
Lemma turns_after w p X k m : rotation_vector (vscale k w) m -> turns w p X -> X k = mapply m p.
Proof. intros H T. pose proof (H p _ (turns_scale w p X k T)) as E. cbv beta in E. rewrite Rmult_1_l in E. exact E. Qed.

(* angle and axis of a quaternion *)
Lemma angle_axis_spec q : qunit q -> let '(a, u) := angle_axis q in 0 <= a <= PI /\ vdot u u = 1 /\ aa_matrix a u = qmat q /\ (aa_quat a u = q \/ aa_quat a u = qneg q) /\ (a = 0 <-> qmat q = mI).
Proof.
  intros U. destruct q as [[[w x] y] z]. unfold angle_axis. set (n := vnorm (x, y, z)). assert (N2 : n * n = x * x + y * y + z * z) by (unfold n; rewrite norm_sq; cbn; ring).
  assert (N0 : 0 <= n) by apply sqrt_pos. assert (U2 : n * n + w * w = 1) by (unfold qunit in U; cbn in U; nra). pose proof PI_RGT_0 as PP.
  destruct (Req_EM_T n 0) as [E|NE].
  - assert (x = 0) by nra. assert (y = 0) by nra. assert (z = 0) by nra. subst x y z. rewrite E in U2. assert (QI : qmat (w, 0, 0, 0) = mI) by (unfold qmat, mI; tup; ring).
    split; [lra|]. split; [cbn; ring|]. split; [rewrite aa_zero, QI; reflexivity|]. split; [|split; [intros _; exact QI|reflexivity]].
    unfold aa_quat. replace (0 / 2) with 0 by field. rewrite sin_0, cos_0. cbn. unfold qneg.
    assert (W : w = 1 \/ w = -1) by (assert ((w - 1) * (w + 1) = 0) by nra; destruct (Rmult_integral _ _ H); [left|right]; lra). destruct W; [left|right]; tup; lra.
  - assert (P : 0 < n) by lra. destruct (half_angle n w P U2) as (S & C & B). set (h := atan2_pos n (Rabs w)) in *.
    set (u := vscale (/ (if Rlt_dec w 0 then - n else n)) (x, y, z)).
    assert (UN : vdot u u = 1).
    { transitivity ((x * x + y * y + z * z) / (n * n)); [unfold u; destruct (Rlt_dec w 0); cbn; field; lra|]. rewrite <- N2. field. lra. }
    assert (AQ : aa_quat (2 * h) u = (w, x, y, z) \/ aa_quat (2 * h) u = qneg (w, x, y, z)).
    { unfold aa_quat. replace (2 * h / 2) with h by field. rewrite S, C. unfold u, Rabs, qneg. destruct (Rlt_dec w 0) as [L|L]; destruct (Rcase_abs w) as [L'|L']; try lra; [right|left]; cbn; tup; field; lra. }
    assert (AM : aa_matrix (2 * h) u = qmat (aa_quat (2 * h) u)).
    { unfold aa_matrix, aa_quat. replace (2 * h / 2) with h by field. rewrite sin_2a, cos_2a. destruct u as [[u1 u2] u3]. cbn in UN. assert (S2 : cos h * cos h = 1 - sin h * sin h) by (pose proof (sin2_cos2 h) as K; unfold Rsqr in K; lra).
      assert (U1 : u1 * u1 = 1 - u2 * u2 - u3 * u3) by lra. cbn. generalize (sin h) (cos h) S2. intros s c SC. tup; ring [U1 SC]. }
    split; [lra|]. split; [exact UN|]. split; [rewrite AM; destruct AQ as [->| ->]; [reflexivity|apply qmat_neg]|]. split; [exact AQ|].
    split; [intros; lra|]. intros Q. exfalso. unfold qmat, mI in Q. inversion Q. nra.
Qed.
Lemma scaled_norm a u : 0 <= a -> vdot u u = 1 -> vnorm (vscale a u) = a.
Proof. intros A U. unfold vnorm. replace (vdot (vscale a u) (vscale a u)) with (a * a * vdot u u) by (destruct u as [[? ?] ?]; cbn; ring). rewrite U, Rmult_1_r. apply sqrt_square. exact A. Qed.
Lemma scaled_normalized a u : 0 < a -> vdot u u = 1 -> normalized (vscale a u) = u.
Proof.
  intros A U. pose proof (scaled_norm a u (Rlt_le _ _ A) U) as N. destruct (normalized_nz (vscale a u)) as (E & _ & _); [lra|]. rewrite E, N. destruct u as [[? ?] ?]. cbn. tup; field; lra.
Qed.
Lemma scaled_matrix a u : 0 <= a -> vdot u u = 1 -> aa_matrix (vnorm (vscale a u)) (normalized (vscale a u)) = aa_matrix a u.
Proof.
  intros A U. rewrite (scaled_norm a u A U). destruct A as [A|<-]; [rewrite (scaled_normalized a u A U); reflexivity|]. rewrite !aa_zero. reflexivity.
Qed.
Lemma aa_quat_zero u : aa_quat 0 u = qI. Proof. unfold aa_quat, qI. replace (0 / 2) with 0 by field. rewrite sin_0, cos_0. destruct u as [[? ?] ?]. cbn. tup; ring. Qed.
Lemma scaled_quat a u : 0 <= a -> vdot u u = 1 -> aa_quat (vnorm (vscale a u)) (normalized (vscale a u)) = aa_quat a u.
Proof. intros A U. rewrite (scaled_norm a u A U). destruct A as [A|<-]; [rewrite (scaled_normalized a u A U); reflexivity|]. rewrite !aa_quat_zero. reflexivity. Qed.

(* what a point of type PointAngleAxis keeps of a pose *)
Lemma stored p q : qunit q -> let k := paa_of_quat p q in
  a_pos k = p /\ paa_angle k <= PI /\ rotation_vector (a_rot k) (qmat q) /\ paa_matrix k = qmat q /\ (paa_quat k = q \/ paa_quat k = qneg q) /\ paa_iso k = to_transform p q.
Proof.
  intros U. pose proof (angle_axis_spec q U) as K. cbv zeta. unfold paa_of_quat, paa_iso, paa_matrix, paa_quat, paa_get, paa_angle, paa_set. destruct (angle_axis q) as [a u]. cbn [a_pos a_rot fst snd].
  destruct K as ((A0 & A1) & UN & M & Q & _). rewrite (scaled_matrix a u A0 UN), (scaled_quat a u A0 UN), M. split; [reflexivity|]. split; [rewrite (scaled_norm a u A0 UN); exact A1|].
  split; [rewrite <- M, <- (scaled_matrix a u A0 UN); apply vector_rotation|]. split; [reflexivity|]. split; [exact Q|reflexivity].
Qed.
Lemma stored_iso t : motion t -> paa_iso (paa_of_iso t) = t /\ paa_angle (paa_of_iso t) <= PI /\ rotation_vector (a_rot (paa_of_iso t)) (lin t) /\ (a_rot (paa_of_iso t) = v0 <-> lin t = mI).
Proof.
  intros M. destruct (quat_of_spec (lin t) M) as [E U]. pose proof (stored (tr t) (quat_of (lin t)) U) as (P & A & Rv & Mx & _ & I). change (paa_of_quat (tr t) (quat_of (lin t))) with (paa_of_iso t) in *. rewrite E in *.
  split; [rewrite I; unfold to_transform; rewrite E; destruct t; reflexivity|]. split; [exact A|]. split; [exact Rv|].
  pose proof (angle_axis_spec _ U) as K. unfold paa_of_iso, paa_set. cbn [a_rot]. destruct (angle_axis (quat_of (lin t))) as [a u]. cbn [fst snd]. destruct K as ((A0 & _) & UN & _ & _ & Z). rewrite E in Z. rewrite <- Z. split.
  - intros V. rewrite <- (scaled_norm a u A0 UN), V. apply norm_v0.
  - intros ->. destruct u as [[? ?] ?]. unfold v0. cbn. tup; ring.
Qed.
(* every point of the type stands for a rotation *)
Lemma meaning p r : let k := mkPAA p r in rotation_vector r (paa_matrix k) /\ qunit (paa_quat k) /\ qmat (paa_quat k) = paa_matrix k /\ proper (paa_matrix k).
Proof.
  cbv zeta. unfold paa_matrix, paa_quat, paa_get, paa_angle. cbn [a_rot]. split; [apply vector_rotation|].
  assert (K : qunit (aa_quat (vnorm r) (normalized r)) /\ qmat (aa_quat (vnorm r) (normalized r)) = aa_matrix (vnorm r) (normalized r)).
  { destruct (Req_dec (vnorm r) 0) as [E|N]; [rewrite E, aa_quat_zero, aa_zero; split; [apply qunit_I|apply qmat_I]|].
    destruct (normalized_nz r N) as (_ & U & _). set (u := normalized r) in *. set (a := vnorm r). set (h := a / 2). assert (Ea : a = 2 * h) by (unfold h; field).
    destruct u as [[u1 u2] u3]. cbn in U. assert (S2 : cos h * cos h = 1 - sin h * sin h) by (pose proof (sin2_cos2 h) as K; unfold Rsqr in K; lra). assert (U1 : u1 * u1 = 1 - u2 * u2 - u3 * u3) by lra.
    unfold aa_quat, aa_matrix. fold h. rewrite Ea, sin_2a, cos_2a. generalize (sin h) (cos h) S2. intros s c SC. split.
    - unfold qunit. cbn. ring [U1 SC].
    - cbn. tup; ring [U1 SC]. }
  destruct K as [K1 K2]. split; [exact K1|]. split; [exact K2|]. rewrite <- K2. apply qmat_proper. exact K1.
Qed.
Lemma sqrt_scale s (u : vec3) : 0 <= s -> vdot u u = 1 -> vnorm (vscale s u) = s. Proof. apply scaled_norm. Qed.
Lemma angle_axis_quat a u : 0 < a < PI -> vdot u u = 1 -> angle_axis (aa_quat a u) = (a, u).
Proof.
  intros [A0 A1] U. set (h := a / 2). assert (Ea : a = 2 * h) by (unfold h; field). pose proof PI_RGT_0.
  assert (SP : 0 < sin h) by (apply sin_gt_0; lra). assert (CP : 0 < cos h) by (apply cos_gt_0; lra).
  unfold aa_quat. fold h. destruct (vscale (sin h) u) as [[x y] z] eqn:E. unfold angle_axis. rewrite <- E. rewrite (scaled_norm (sin h) u (Rlt_le _ _ SP) U).
  destruct (Req_EM_T (sin h) 0) as [Z|_]; [lra|]. destruct (Rlt_dec (cos h) 0) as [L|_]; [lra|]. rewrite (Rabs_pos_eq (cos h)) by lra.
  assert (AT : atan2_pos (sin h) (cos h) = h).
  { unfold atan2_pos. destruct (Req_EM_T (cos h) 0) as [Z|_]; [lra|]. change (sin h / cos h) with (tan h). apply atan_tan. lra. }
  rewrite AT, <- Ea. f_equal. destruct u as [[u1 u2] u3]. cbn. tup; field; lra.
Qed.
Lemma stored_vector p r : vnorm r < PI -> let k := mkPAA p r in paa_of_quat p (paa_quat k) = k.
Proof.
  intros L. cbv zeta. unfold paa_of_quat, paa_quat, paa_get, paa_angle, paa_set. cbn [a_rot]. destruct (Req_dec (vnorm r) 0) as [E|N].
  - rewrite E, aa_quat_zero, (norm0 r E). f_equal. assert (W : angle_axis qI = (0, (1, 0, 0))) by (unfold angle_axis, qI; change (vnorm (0, 0, 0)) with (vnorm v0); rewrite norm_v0; destruct (Req_EM_T 0 0); [reflexivity|contradiction]). rewrite W. unfold v0. cbn. tup; ring.
  - assert (P : 0 <= vnorm r) by apply sqrt_pos. destruct (normalized_nz r N) as (_ & U & S). rewrite angle_axis_quat by (try lra; exact U). cbn [fst snd]. rewrite <- S. reflexivity.
Qed.

(* PrecomputedTransformComponents *)
Lemma parts_motion t : motion t -> exists k, parts_of t = Some k /\ k_m k = lin t /\ c_t (k_c k) = tr t /\ rotation_vector (c_r (k_c k)) (lin t) /\
  c_a (k_c k) = vnorm (c_r (k_c k)) /\ c_a (k_c k) <= PI /\ c_sa (k_c k) = sin (c_a (k_c k)) /\ c_ca (k_c k) = cos (c_a (k_c k)).
Proof.
  intros M. destruct (quat_of_spec (lin t) M) as [E U]. pose proof (angle_axis_spec _ U) as K. eexists. split; [reflexivity|]. cbn [k_m k_c]. split; [reflexivity|]. unfold components.
  destruct (angle_axis (quat_of (lin t))) as [a u]. cbn [c_t c_r c_a c_sa c_ca]. destruct K as ((A0 & A1) & UN & Mx & _ & _). rewrite E in Mx. split; [reflexivity|].
  split; [rewrite <- Mx, <- (scaled_matrix a u A0 UN); apply vector_rotation|]. rewrite (scaled_norm a u A0 UN). repeat split; assumption.
Qed.
Lemma parts_vector r t : vnorm r <> 0 -> exists k, parts_rt r t = Some k /\ rotation_vector r (k_m k) /\ motion (mkIso (k_m k) t) /\ c_r (k_c k) = r /\ c_t (k_c k) = t /\
  c_a (k_c k) = vnorm r /\ c_sa (k_c k) = sin (vnorm r) /\ c_ca (k_c k) = cos (vnorm r) /\
  (vnorm r < PI -> parts_of (mkIso (k_m k) t) = Some k).
Proof.
  intros N. unfold parts_rt. destruct (Req_EM_T (vnorm r) 0) as [Z|_]; [contradiction|]. eexists. split; [reflexivity|]. cbn [k_m k_c components_rt c_r c_t c_a c_sa c_ca].
  destruct (normalized_nz r N) as (E & U & S). rewrite <- E. pose proof (meaning v0 r) as (Rv & Q1 & Q2 & Pr). unfold paa_matrix, paa_quat, paa_get, paa_angle in *. cbn [a_rot] in *.
  split; [exact Rv|]. split; [exact Pr|]. repeat (split; [reflexivity|]). intros L. unfold parts_of. cbn [lin]. f_equal. f_equal.
  destruct (quat_of_spec _ Pr) as [E2 U2]. unfold components. cbn [lin tr].
  pose proof (parts_motion (mkIso (aa_matrix (vnorm r) (normalized r)) t) Pr) as (k & K1 & _ & _ & K2 & K3 & K4 & _ & _). injection K1 as <-. cbn [k_c lin] in *.
  unfold components in K2, K3, K4. cbn [lin tr] in *. pose proof (angle_axis_spec _ U2) as SP.
  (* both quaternions stand for the same rotation *)
  assert (QE : quat_of (aa_matrix (vnorm r) (normalized r)) = aa_quat (vnorm r) (normalized r) \/ quat_of (aa_matrix (vnorm r) (normalized r)) = qneg (aa_quat (vnorm r) (normalized r))).
  { destruct (quat_of (aa_matrix (vnorm r) (normalized r))) as [[[w x] y] z] eqn:EQ. destruct (aa_quat (vnorm r) (normalized r)) as [[[w' x'] y'] z'] eqn:EA. rewrite <- Q2 in E2. unfold qmat in E2.
    injection E2 as e1 e2 e3 e4 e5 e6 e7 e8 e9. unfold qunit in U2, Q1. cbn in U2, Q1. clear - e1 e2 e3 e4 e5 e6 e7 e8 e9 U2 Q1.
    assert (ww : w * w = w' * w') by lra. assert (xx : x * x = x' * x') by lra. assert (yy : y * y = y' * y') by lra. assert (zz : z * z = z' * z') by lra.
    assert (xy : x * y = x' * y') by lra. assert (xz : x * z = x' * z') by lra. assert (yz : y * z = y' * z') by lra. assert (wx : w * x = w' * x') by lra. assert (wy : w * y = w' * y') by lra. assert (wz : w * z = w' * z') by lra.
    assert (D : (w * w' + x * x' + y * y' + z * z') * (w * w' + x * x' + y * y' + z * z') = 1).
    { transitivity ((w' * w' + x' * x' + y' * y' + z' * z') * (w' * w' + x' * x' + y' * y' + z' * z')); [|rewrite Q1; ring].
      transitivity (w * w * (w' * w') + x * x * (x' * x') + y * y * (y' * y') + z * z * (z' * z') + 2 * (w * x * (w' * x') + w * y * (w' * y') + w * z * (w' * z') + x * y * (x' * y') + x * z * (x' * z') + y * z * (y' * z'))); [ring|].
      rewrite ww, xx, yy, zz, xy, xz, yz, wx, wy, wz. ring. }
    set (d := w * w' + x * x' + y * y' + z * z') in *. assert (DD : d = 1 \/ d = -1) by (assert (X : (d - 1) * (d + 1) = 0) by lra; destruct (Rmult_integral _ _ X); [left|right]; lra).
    unfold qneg. destruct DD as [DD|DD]; [left|right]; unfold d in DD.
    - assert (Q : (w - w') * (w - w') + (x - x') * (x - x') + (y - y') * (y - y') + (z - z') * (z - z') = 0) by lra. apply sq4 in Q. destruct Q as (? & ? & ? & ?). tup; lra.
    - assert (Q : (w + w') * (w + w') + (x + x') * (x + x') + (y + y') * (y + y') + (z + z') * (z + z') = 0) by lra. apply sq4 in Q. destruct Q as (? & ? & ? & ?). tup; lra. }
  assert (NP : 0 <= vnorm r) by apply sqrt_pos.
  assert (AA : angle_axis (quat_of (aa_matrix (vnorm r) (normalized r))) = (vnorm r, normalized r)).
  { destruct QE as [->| ->]; [apply angle_axis_quat; [lra|exact U]|]. rewrite <- (angle_axis_quat (vnorm r) (normalized r)) by (try lra; exact U).
    set (h := vnorm r / 2). pose proof PI_RGT_0. assert (CP : 0 < cos h) by (apply cos_gt_0; unfold h; lra).
    unfold aa_quat. fold h. destruct (vscale (sin h) (normalized r)) as [[x y] z]. unfold qneg, angle_axis.
    assert (VN : vnorm (- x, - y, - z) = vnorm (x, y, z)) by (unfold vnorm; f_equal; cbn; ring). rewrite VN. destruct (Req_EM_T (vnorm (x, y, z)) 0) as [|NZ]; [reflexivity|]. rewrite Rabs_Ropp.
    destruct (Rlt_dec (- cos h) 0) as [_|Q]; [|lra]. destruct (Rlt_dec (cos h) 0) as [Q|_]; [lra|]. f_equal. cbn. tup; field; exact NZ. }
  rewrite AA, <- S. reflexivity.
Qed.
Lemma parts_zero t : parts_rt v0 t = None.
Proof. unfold parts_rt. rewrite norm_v0. destruct (Req_EM_T 0 0); [reflexivity|contradiction]. Qed.

(* linear_rates *)
Lemma rates_throw p1 p2 dt : linear_rates p1 p2 dt = Throw <-> dt <= 0.
Proof. unfold linear_rates. destruct (Rle_dec dt 0) as [L|L]; [split; [intros _; exact L|reflexivity]|]. destruct (angle_axis _). split; [discriminate|contradiction]. Qed.
Lemma travels_turns w v p X : travels w v p X -> turns w p (fun s => vsub (X s) (vscale s v)).
Proof.
  intros [A B]. split; [rewrite A; destruct p as [[? ?] ?], v as [[? ?] ?]; cbn; tup; ring|]. intros s. specialize (B s). cbv beta in *.
  destruct v as [[v1 v2] v3], w as [[w1 w2] w3]. destruct (X s) as [[x y] z] eqn:E. cbn [vsub vadd vopp vscale vcross] in B |- *. destruct B as (B1 & B2 & B3).
  assert (L : forall k, derivable_pt_lim (fun s => s * k) s k) by (intros k; eapply dl_eq; [|apply (derivable_pt_lim_mult (fun s => s) (fun _ => k)); [apply derivable_pt_lim_id|apply derivable_pt_lim_const]]; cbn; ring).
  split; [|split].
  - eapply dl_eq; [|eapply dl_ext; [|apply (derivable_pt_lim_minus _ _ _ _ _ B1 (L v1))]]; [ring|]. intros y0. unfold minus_fct. cbv beta. destruct (X y0) as [[? ?] ?]. cbn. ring.
  - eapply dl_eq; [|eapply dl_ext; [|apply (derivable_pt_lim_minus _ _ _ _ _ B2 (L v2))]]; [ring|]. intros y0. unfold minus_fct. cbv beta. destruct (X y0) as [[? ?] ?]. cbn. ring.
  - eapply dl_eq; [|eapply dl_ext; [|apply (derivable_pt_lim_minus _ _ _ _ _ B3 (L v3))]]; [ring|]. intros y0. unfold minus_fct. cbv beta. destruct (X y0) as [[? ?] ?]. cbn. ring.
Qed.
Lemma travels_exists w v p : exists X, travels w v p X.
Proof.
  assert (TY : exists Y, turns w p Y) by (eexists; apply vector_turns). destruct TY as (Y & A & B).
  exists (fun s => vadd (Y s) (vscale s v)). split; [rewrite A; destruct p as [[? ?] ?], v as [[? ?] ?]; cbn; tup; ring|]. intros s. specialize (B s). cbv beta in *.
  destruct v as [[v1 v2] v3], w as [[w1 w2] w3]. destruct (Y s) as [[x y] z] eqn:E. cbn [vsub vadd vopp vscale vcross] in B |- *. destruct B as (B1 & B2 & B3).
  assert (L : forall k, derivable_pt_lim (fun s => s * k) s k) by (intros k; eapply dl_eq; [|apply (derivable_pt_lim_mult (fun s => s) (fun _ => k)); [apply derivable_pt_lim_id|apply derivable_pt_lim_const]]; cbn; ring).
  split; [|split].
  - eapply dl_eq; [|eapply dl_ext; [|apply (derivable_pt_lim_plus _ _ _ _ _ B1 (L v1))]]; [ring|]. intros y0. unfold plus_fct. cbv beta. destruct (Y y0) as [[? ?] ?]. cbn. ring.
  - eapply dl_eq; [|eapply dl_ext; [|apply (derivable_pt_lim_plus _ _ _ _ _ B2 (L v2))]]; [ring|]. intros y0. unfold plus_fct. cbv beta. destruct (Y y0) as [[? ?] ?]. cbn. ring.
  - eapply dl_eq; [|eapply dl_ext; [|apply (derivable_pt_lim_plus _ _ _ _ _ B3 (L v3))]]; [ring|]. intros y0. unfold plus_fct. cbv beta. destruct (Y y0) as [[? ?] ?]. cbn. ring.
Qed.
Lemma add_back a b c : vsub a b = c -> a = vadd c b. Proof. intros <-. vring. Qed.
Lemma rates_spec p1 p2 dt w v : motion p1 -> motion p2 -> linear_rates p1 p2 dt = Ok (w, v) ->
  0 < dt /\ vnorm (vscale dt w) <= PI /\ vscale dt v = tr (imul (iinv p1) p2) /\
  (forall p X, travels w v p X -> iapp p1 (X dt) = iapp p2 p).
Proof.
  intros M1 M2. unfold linear_rates. destruct (Rle_dec dt 0) as [|L]; [discriminate|]. set (t := relative_transform p1 p2). assert (M : motion t) by (apply motion_mul; [apply motion_inv; exact M1|exact M2]).
  destruct (quat_of_spec (lin t) M) as [E U]. pose proof (angle_axis_spec _ U) as K. destruct (angle_axis (quat_of (lin t))) as [a u]. intros [= <- <-]. assert (P : 0 < dt) by lra.
  destruct K as ((A0 & A1) & UN & Mx & _ & _). rewrite E in Mx. assert (SC : forall x, vscale dt (vscale (/ dt) x) = x) by (intros [[? ?] ?]; cbn; tup; field; lra). rewrite !SC.
  split; [exact P|]. split; [rewrite (scaled_norm a u A0 UN); exact A1|]. split; [reflexivity|].
  intros p X T. pose proof (travels_turns _ _ _ _ T) as TT. assert (Rv : rotation_vector (vscale dt (vscale (/ dt) (vscale a u))) (lin t)) by (rewrite SC, <- Mx, <- (scaled_matrix a u A0 UN); apply vector_rotation).
  pose proof (turns_after _ _ _ dt _ Rv TT) as F. cbv beta in F. rewrite SC in F. assert (XE : X dt = iapp t p) by (apply add_back; exact F).
  rewrite XE. unfold t, relative_transform. rewrite <- iapp_mul, imul_assoc, (imul_inv_r p1 (motion_rigid p1 M1)), imul_id_l. reflexivity.
Qed.
Lemma rates_defined p1 p2 dt : 0 < dt -> exists w v, linear_rates p1 p2 dt = Ok (w, v).
Proof. intros P. unfold linear_rates. destruct (Rle_dec dt 0) as [L|L]; [lra|]. destruct (angle_axis _) as [a u]. eauto. Qed.
