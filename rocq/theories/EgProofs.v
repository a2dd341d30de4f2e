(* Proofs about poses with covariance and frame changes. *)
From Coq Require Import ZArith Reals Lra Lia Psatz List Nsatz.
From Verif Require Import Base Mx Interp Geo EgModel CvProofs.
Open Scope R_scope.

(* proper rotations *)
Definition det (m : mat3) : R :=
  let '((a, b, c), (d, e, f), (g, h, i)) := m in a * (e * i - f * h) - b * (d * i - f * g) + c * (d * h - e * g).
Definition cof (m : mat3) : mat3 :=
  let '((a, b, c), (d, e, f), (g, h, i)) := m in
  ((e * i - f * h, f * g - d * i, d * h - e * g), (c * h - b * i, a * i - c * g, b * g - a * h), (b * f - c * e, c * d - a * f, a * e - b * d)).
Definition proper (m : mat3) : Prop := orth m /\ det m = 1.
Definition motion (t : iso) : Prop := proper (lin t).
Lemma det_mul a b : det (mmul a b) = det a * det b. Proof. vsplit. vred. unfold det. ring. Qed.
Lemma det_T a : det (mT a) = det a. Proof. vsplit. vred. unfold det. ring. Qed.
Lemma proper_I : proper mI. Proof. split; [apply orth_I|unfold det, mI; ring]. Qed.
Lemma proper_mul a b : proper a -> proper b -> proper (mmul a b). Proof. intros [A A'] [B B']. split; [apply orth_mul; assumption|]. rewrite det_mul, A', B'. ring. Qed.
Lemma proper_T a : proper a -> proper (mT a). Proof. intros [A A']. split; [apply orth_T; exact A|]. rewrite det_T. exact A'. Qed.
Lemma motion_rigid t : motion t -> rigid t. Proof. intros [A _]. exact A. Qed.
Lemma motion_id : motion iid. Proof. apply proper_I. Qed.
Lemma motion_mul a b : motion a -> motion b -> motion (imul a b). Proof. apply proper_mul. Qed.
Lemma motion_inv a : motion a -> motion (iinv a). Proof. apply proper_T. Qed.
Lemma qmat_proper q : qunit q -> proper (qmat q).
Proof.
  intros H. split; [apply qmat_orth; exact H|]. unfold qunit in H. destruct q as [[[w x] y] z]. cbn in H. unfold qmat, det.
  assert (E : w * w = 1 - x * x - y * y - z * z) by lra. ring [E].
Qed.
Lemma proper_cof m : proper m -> m = cof m.
Proof.
  intros [[A B] D]. assert (E : mmul (mT m) (cof m) = mscale (det m) mI) by (vsplit; unfold cof, det; vred; tup; ring).
  rewrite D in E. assert (S1 : mscale 1 mI = mI) by (vred; tup; ring). rewrite S1 in E.
  rewrite <- (mmul_I_l (cof m)), <- B, <- mmul_assoc, E, mmul_I_r. reflexivity.
Qed.
(* R [v]x = [R v]x R *)
Lemma skew_rotate m v : proper m -> mmul m (skew v) = mmul (skew (mapply m v)) m.
Proof.
  intros [[A B] D]. assert (E : mmul (mT m) (mmul (skew (mapply m v)) m) = mscale (det m) (skew v)) by (vsplit; unfold det; vred; tup; ring).
  rewrite D in E. assert (S1 : mscale 1 (skew v) = skew v) by (vsplit; vred; tup; ring). rewrite S1 in E. rewrite <- E, mmul_assoc, B, mmul_I_l. reflexivity.
Qed.
Lemma skew_add a b : skew (vadd a b) = madd (skew a) (skew b). Proof. vring. Qed.
Lemma skew_opp a : skew (vopp a) = mopp (skew a). Proof. vring. Qed.
Lemma skew_cross v w : mapply (skew v) w = vcross v w. Proof. vring. Qed.
Lemma skew_antisym v : mT (skew v) = mopp (skew v). Proof. vring. Qed.

(* block products *)
Lemma blocks_mul a b c d a' b' c' d' :
  eqm 6 6 (mulm 6 (blocks a b c d) (blocks a' b' c' d'))
          (blocks (madd (mmul a a') (mmul b c')) (madd (mmul a b') (mmul b d')) (madd (mmul c a') (mmul d c')) (madd (mmul c b') (mmul d d'))).
Proof.
  intros i j Li Lj. vsplit. do 6 (try destruct i as [|i]); try lia; do 6 (try destruct j as [|j]); try lia;
  cbv [mulm sum blocks mget vget Nat.ltb Nat.leb Nat.sub madd mmul mapply vdot mT vadd]; ring.
Qed.
Lemma blocks_id : eqm 6 6 (blocks mI m0 m0 mI) idm.
Proof. intros i j Li Lj. do 6 (try destruct i as [|i]); try lia; do 6 (try destruct j as [|j]); try lia; reflexivity. Qed.
Lemma blocks_T a b c d : eqm 6 6 (trm (blocks a b c d)) (blocks (mT a) (mT c) (mT b) (mT d)).
Proof. intros i j Li Lj. vsplit. do 6 (try destruct i as [|i]); try lia; do 6 (try destruct j as [|j]); try lia; reflexivity. Qed.
Lemma blocks_get m : eqm 6 6 (blocks (block3 m 0 0) (block3 m 0 3) (block3 m 3 0) (block3 m 3 3)) m.
Proof. intros i j Li Lj. do 6 (try destruct i as [|i]); try lia; do 6 (try destruct j as [|j]); try lia; reflexivity. Qed.

(* The adjoint is a homomorphism. *)
Lemma adjoint_id : eqm 6 6 (transform_adjoint iid) idm.
Proof. unfold transform_adjoint, iid. cbn [lin tr]. replace (mmul (skew v0) mI) with m0 by (vred; tup; ring). apply blocks_id. Qed.
Lemma adjoint_mul a b : motion a -> eqm 6 6 (transform_adjoint (imul a b)) (mulm 6 (transform_adjoint a) (transform_adjoint b)).
Proof.
  intros P. apply eqm_sym. eapply eqm_trans; [apply blocks_mul|]. unfold transform_adjoint, imul. cbn [lin tr].
  rewrite !mmul_0_l, !mmul_0_r, !madd_0_l, !madd_0_r.
  replace (madd (mmul (mmul (skew (tr a)) (lin a)) (lin b)) (mmul (lin a) (mmul (skew (tr b)) (lin b)))) with (mmul (skew (vadd (mapply (lin a) (tr b)) (tr a))) (mmul (lin a) (lin b))).
  - apply eqm_refl.
  - rewrite skew_add, mmul_add_l, madd_comm. f_equal; [rewrite mmul_assoc; reflexivity|]. rewrite !mmul_assoc. f_equal. symmetry. apply skew_rotate. exact P.
Qed.
Lemma adjoint_inv t : motion t -> inverse_of 6 (transform_adjoint t) (transform_adjoint (iinv t)).
Proof.
  intros M. split.
  - eapply eqm_trans; [apply eqm_sym; apply adjoint_mul; exact M|]. rewrite imul_inv_r by (apply motion_rigid; exact M). apply adjoint_id.
  - eapply eqm_trans; [apply eqm_sym; apply adjoint_mul; apply motion_inv; exact M|]. rewrite imul_inv_l by (apply motion_rigid; exact M). apply adjoint_id.
Qed.

(* covariance frame change *)
Lemma change_ext c c' a a' : eqm 6 6 c c' -> eqm 6 6 a a' -> eqm 6 6 (change_covariance_adj c a) (change_covariance_adj c' a').
Proof. intros H K. unfold change_covariance_adj. apply mulm_ext; [apply mulm_ext; assumption|]. intros i j Li Lj. apply K; assumption. Qed.
Lemma change_id c : eqm 6 6 (change_covariance_frame c iid) c.
Proof.
  eapply eqm_trans; [apply change_ext; [apply eqm_refl|apply adjoint_id]|]. unfold change_covariance_adj.
  eapply eqm_trans; [apply mulm_ext; [apply mulm_id_l|apply eqm_refl]|]. intros i j Li Lj. rewrite <- (mulm_id_r 6 6 c i j) by assumption. unfold mulm. apply sum_ext. intros l _. f_equal. unfold trm, idm. rewrite Nat.eqb_sym. reflexivity.
Qed.
Lemma change_mul c a b : motion a -> eqm 6 6 (change_covariance_frame (change_covariance_frame c b) a) (change_covariance_frame c (imul a b)).
Proof.
  intros M. apply eqm_sym. eapply eqm_trans; [apply change_ext; [apply eqm_refl|apply adjoint_mul; exact M]|].
  intros i j Li Lj. unfold change_covariance_frame, change_covariance_adj.
  set (A := transform_adjoint a). set (B := transform_adjoint b).
  transitivity (mulm 6 (mulm 6 (mulm 6 A B) c) (mulm 6 (trm B) (trm A)) i j).
  { unfold mulm at 1. unfold mulm at 4. apply sum_ext. intros l _. f_equal. apply trm_mulm. }
  rewrite <- mulm_assoc. apply (mulm_ext 6 6 6); [|apply eqm_refl|exact Li|exact Lj]. clear i j Li Lj. intros i j Li Lj.
  rewrite <- mulm_assoc. unfold mulm at 1 4. apply sum_ext. intros l _. f_equal. apply mulm_assoc.
Qed.
Lemma change_keeps c t : (symmetric 6 c -> symmetric 6 (change_covariance_frame c t)) /\ (psd 6 c -> psd 6 (change_covariance_frame c t)) /\
  (motion t -> pd 6 c -> pd 6 (change_covariance_frame c t)).
Proof.
  split; [apply congruence_sym|]. split; [apply congruence_psd|]. intros M. exact (congruence_pd 6 _ _ c (adjoint_inv t M)).
Qed.

(* Eigen's quaternion of a rotation matrix gives that rotation. *)
Lemma cut (D S X Y : R) : D * S = / 4 -> X = 4 * D * Y -> X * S = Y.
Proof. intros H ->. replace (4 * D * Y * S) with (4 * Y * (D * S)) by ring. rewrite H. field. Qed.
Lemma root (D : R) : 0 < D -> let t := sqrt D in let s := / 2 / t in t * t = D /\ t * s = / 2 /\ D * (s * s) = / 4.
Proof.
  intros P t s. assert (T : t * t = D) by (apply sqrt_sqrt; lra). assert (TP : 0 < t) by (apply sqrt_lt_R0; exact P).
  assert (TS : t * s = / 2) by (unfold s; field; lra). split; [exact T|]. split; [exact TS|]. rewrite <- T. replace (t * t * (s * s)) with ((t * s) * (t * s)) by ring. rewrite TS. field.
Qed.
Lemma quat_of_spec m : proper m -> qmat (quat_of m) = m /\ qunit (quat_of m).
Proof.
  intros P. pose proof (proper_cof m P) as C. destruct P as [[A B] _]. destruct m as [[[[a b] c] [[d e] f]] [[g h] i]].
  unfold cof in C. vred. injection A as A0 A1 A2 A3 A4 A5 A6 A7 A8. injection B as B0 B1 B2 B3 B4 B5 B6 B7 B8. injection C as C0 C1 C2 C3 C4 C5 C6 C7 C8.
  assert (Gen : forall w x y z,
     w * w + x * x + y * y + z * z = 1 -> 1 - 2 * (y * y + z * z) = a -> 1 - 2 * (x * x + z * z) = e -> 1 - 2 * (x * x + y * y) = i ->
     2 * (x * y - w * z) = b -> 2 * (x * y + w * z) = d -> 2 * (x * z + w * y) = c -> 2 * (x * z - w * y) = g -> 2 * (y * z - w * x) = f -> 2 * (y * z + w * x) = h ->
     qmat (w, x, y, z) = ((a, b, c), (d, e, f), (g, h, i)) /\ qunit (w, x, y, z)).
  { intros w x y z H0 H1 H2 H3 H4 H5 H6 H7 H8 H9. split; [unfold qmat; tup; assumption|]. unfold qunit, qdot. exact H0. }
  unfold quat_of. destruct (Rlt_dec 0 (a + e + i)) as [TP|TN].
  - destruct (root (a + e + i + 1) ltac:(lra)) as (T & TS & DS). set (t := sqrt (a + e + i + 1)) in *. set (s := / 2 / t) in *.
    assert (W : / 2 * t * (/ 2 * t) = (a + e + i + 1) / 4) by (replace (/ 2 * t * (/ 2 * t)) with (t * t / 4) by field; rewrite T; field).
    assert (X1 : (h - f) * s * ((h - f) * s) = (1 + a - e - i) / 4) by (replace ((h - f) * s * ((h - f) * s)) with ((h - f) * (h - f) * (s * s)) by ring; apply (cut _ _ _ _ DS); lra).
    assert (X2 : (c - g) * s * ((c - g) * s) = (1 - a + e - i) / 4) by (replace ((c - g) * s * ((c - g) * s)) with ((c - g) * (c - g) * (s * s)) by ring; apply (cut _ _ _ _ DS); lra).
    assert (X3 : (d - b) * s * ((d - b) * s) = (1 - a - e + i) / 4) by (replace ((d - b) * s * ((d - b) * s)) with ((d - b) * (d - b) * (s * s)) by ring; apply (cut _ _ _ _ DS); lra).
    assert (Y1 : / 2 * t * ((h - f) * s) = (h - f) / 4) by (replace (/ 2 * t * ((h - f) * s)) with (/ 2 * (h - f) * (t * s)) by ring; rewrite TS; field).
    assert (Y2 : / 2 * t * ((c - g) * s) = (c - g) / 4) by (replace (/ 2 * t * ((c - g) * s)) with (/ 2 * (c - g) * (t * s)) by ring; rewrite TS; field).
    assert (Y3 : / 2 * t * ((d - b) * s) = (d - b) / 4) by (replace (/ 2 * t * ((d - b) * s)) with (/ 2 * (d - b) * (t * s)) by ring; rewrite TS; field).
    assert (Z1 : (h - f) * s * ((c - g) * s) = (b + d) / 4) by (replace ((h - f) * s * ((c - g) * s)) with ((h - f) * (c - g) * (s * s)) by ring; apply (cut _ _ _ _ DS); lra).
    assert (Z2 : (h - f) * s * ((d - b) * s) = (c + g) / 4) by (replace ((h - f) * s * ((d - b) * s)) with ((h - f) * (d - b) * (s * s)) by ring; apply (cut _ _ _ _ DS); lra).
    assert (Z3 : (c - g) * s * ((d - b) * s) = (f + h) / 4) by (replace ((c - g) * s * ((d - b) * s)) with ((c - g) * (d - b) * (s * s)) by ring; apply (cut _ _ _ _ DS); lra).
    apply Gen; rewrite ?W, ?X1, ?X2, ?X3, ?Y1, ?Y2, ?Y3, ?Z1, ?Z2, ?Z3; lra.
  - destruct (Rlt_dec a e) as [L1|L1]; [destruct (Rlt_dec e i) as [L2|L2]|destruct (Rlt_dec a i) as [L2|L2]].
    all: match goal with |- context[sqrt ?D] => destruct (root D ltac:(lra)) as (T & TS & DS); set (t := sqrt D) in *; set (s := / 2 / t) in * end.
    all: assert (TT : / 2 * t * (/ 2 * t) = t * t / 4) by field; rewrite T in TT.
    all: assert (TSx : forall p, / 2 * t * (p * s) = p / 4) by (intros p; replace (/ 2 * t * (p * s)) with (/ 2 * p * (t * s)) by ring; rewrite TS; field).
    all: assert (TSy : forall p, p * s * (/ 2 * t) = p / 4) by (intros p; rewrite Rmult_comm; apply TSx).
    all: assert (SS : forall p q r, p * q = 4 * (t * t) * r -> p * s * (q * s) = r) by (intros p q r Hr; replace (p * s * (q * s)) with (p * q * (s * s)) by ring; apply (cut _ _ _ _ DS); rewrite <- T; exact Hr).
    all: rewrite T in SS.
    + apply Gen; rewrite ?TSx, ?TSy, ?TT; repeat rewrite (SS (d - b) (d - b) ((1 + a + e + i) / 4)) by lra; repeat rewrite (SS (c + g) (c + g) ((1 + a - e - i) / 4)) by lra;
      repeat rewrite (SS (f + h) (f + h) ((1 - a + e - i) / 4)) by lra; repeat rewrite (SS (c + g) (f + h) ((b + d) / 4)) by lra; repeat rewrite (SS (d - b) (c + g) ((h - f) / 4)) by lra;
      repeat rewrite (SS (d - b) (f + h) ((c - g) / 4)) by lra; lra.
    + apply Gen; rewrite ?TSx, ?TSy, ?TT; repeat rewrite (SS (c - g) (c - g) ((1 + a + e + i) / 4)) by lra; repeat rewrite (SS (b + d) (b + d) ((1 + a - e - i) / 4)) by lra;
      repeat rewrite (SS (h + f) (h + f) ((1 - a - e + i) / 4)) by lra; repeat rewrite (SS (b + d) (h + f) ((c + g) / 4)) by lra; repeat rewrite (SS (c - g) (b + d) ((h - f) / 4)) by lra;
      repeat rewrite (SS (c - g) (h + f) ((d - b) / 4)) by lra; lra.
    + apply Gen; rewrite ?TSx, ?TSy, ?TT; repeat rewrite (SS (d - b) (d - b) ((1 + a + e + i) / 4)) by lra; repeat rewrite (SS (c + g) (c + g) ((1 + a - e - i) / 4)) by lra;
      repeat rewrite (SS (f + h) (f + h) ((1 - a + e - i) / 4)) by lra; repeat rewrite (SS (c + g) (f + h) ((b + d) / 4)) by lra; repeat rewrite (SS (d - b) (c + g) ((h - f) / 4)) by lra;
      repeat rewrite (SS (d - b) (f + h) ((c - g) / 4)) by lra; lra.
    + apply Gen; rewrite ?TSx, ?TSy, ?TT; repeat rewrite (SS (h - f) (h - f) ((1 + a + e + i) / 4)) by lra; repeat rewrite (SS (d + b) (d + b) ((1 - a + e - i) / 4)) by lra;
      repeat rewrite (SS (g + c) (g + c) ((1 - a - e + i) / 4)) by lra; repeat rewrite (SS (d + b) (g + c) ((f + h) / 4)) by lra; repeat rewrite (SS (h - f) (d + b) ((c - g) / 4)) by lra;
      repeat rewrite (SS (h - f) (g + c) ((d - b) / 4)) by lra; lra.
Qed.
