(* Vectors, 3x3 matrices, quaternions and rigid transforms over R, as used through Eigen (Vector3d, Matrix3d, Quaterniond,
   Isometry3d).  double is read as R. eigen_ext/include/eigen_ext/matrix.hpp (MX), eigen_ext/include/eigen_ext/geometry.hpp (GE). *)
From Coq Require Import Reals Lra Lia Psatz.
From Verif Require Import Base Interp.
Open Scope R_scope.

Notation mat3 := (vec3 * vec3 * vec3)%type.   (* rows *)
Definition v0 : vec3 := (0, 0, 0).
Definition vadd (a b : vec3) : vec3 := let '(a0, a1, a2) := a in let '(b0, b1, b2) := b in (a0 + b0, a1 + b1, a2 + b2).
Definition vopp (a : vec3) : vec3 := let '(a0, a1, a2) := a in (- a0, - a1, - a2).
Definition vsub (a b : vec3) : vec3 := vadd a (vopp b).
Definition vscale (k : R) (a : vec3) : vec3 := let '(a0, a1, a2) := a in (k * a0, k * a1, k * a2).
Definition vdot (a b : vec3) : R := let '(a0, a1, a2) := a in let '(b0, b1, b2) := b in a0 * b0 + a1 * b1 + a2 * b2.
Definition vcross (a b : vec3) : vec3 :=
  let '(a0, a1, a2) := a in let '(b0, b1, b2) := b in (a1 * b2 - a2 * b1, a2 * b0 - a0 * b2, a0 * b1 - a1 * b0).
Definition vnorm (a : vec3) : R := sqrt (vdot a a).

Definition mI : mat3 := ((1, 0, 0), (0, 1, 0), (0, 0, 1)).
Definition m0 : mat3 := (v0, v0, v0).
Definition madd (a b : mat3) : mat3 := let '(a0, a1, a2) := a in let '(b0, b1, b2) := b in (vadd a0 b0, vadd a1 b1, vadd a2 b2).
Definition mopp (a : mat3) : mat3 := let '(a0, a1, a2) := a in (vopp a0, vopp a1, vopp a2).
Definition mscale (k : R) (a : mat3) : mat3 := let '(a0, a1, a2) := a in (vscale k a0, vscale k a1, vscale k a2).
Definition mT (a : mat3) : mat3 :=
  let '((a00, a01, a02), (a10, a11, a12), (a20, a21, a22)) := a in ((a00, a10, a20), (a01, a11, a21), (a02, a12, a22)).
Definition mapply (a : mat3) (v : vec3) : vec3 := let '(a0, a1, a2) := a in (vdot a0 v, vdot a1 v, vdot a2 v).
(* row r of the product is (row r of a) * b = bT (row r of a) *)
Definition mmul (a b : mat3) : mat3 := let '(a0, a1, a2) := a in let t := mT b in (mapply t a0, mapply t a1, mapply t a2).
(* MX 135-140 *)
Definition skew (v : vec3) : mat3 := let '(x, y, z) := v in ((0, - z, y), (z, 0, - x), (- y, x, 0)).

Ltac vsplit := repeat match goal with v : vec3 |- _ => destruct v as [[? ?] ?] | v : quat |- _ => destruct v as [[[? ?] ?] ?] | v : mat3 |- _ => destruct v as [[[[? ?] ?] [[? ?] ?]] [[? ?] ?]] end.
Ltac vred := cbv [v0 vadd vopp vsub vscale vdot vcross mI m0 madd mopp mscale mT mapply mmul skew] in *.
Ltac tup := repeat match goal with |- (_, _) = (_, _) => apply f_equal2 end.
Ltac vring := intros; vsplit; vred; tup; ring.

Lemma vadd_comm a b : vadd a b = vadd b a. Proof. vring. Qed.
Lemma vadd_assoc a b c : vadd a (vadd b c) = vadd (vadd a b) c. Proof. vring. Qed.
Lemma vadd_0_l a : vadd v0 a = a. Proof. vring. Qed.
Lemma vadd_0_r a : vadd a v0 = a. Proof. vring. Qed.
Lemma vadd_opp_r a : vadd a (vopp a) = v0. Proof. vring. Qed.
Lemma vopp_opp a : vopp (vopp a) = a. Proof. vring. Qed.
Lemma vdot_comm a b : vdot a b = vdot b a. Proof. vring. Qed.
Lemma mapply_add a v w : mapply a (vadd v w) = vadd (mapply a v) (mapply a w). Proof. vring. Qed.
Lemma mapply_opp a v : mapply a (vopp v) = vopp (mapply a v). Proof. vring. Qed.
Lemma mapply_scale a k v : mapply a (vscale k v) = vscale k (mapply a v). Proof. vring. Qed.
Lemma mapply_I v : mapply mI v = v. Proof. vring. Qed.
Lemma mapply_mul a b v : mapply (mmul a b) v = mapply a (mapply b v). Proof. vring. Qed.
Lemma mmul_assoc a b c : mmul a (mmul b c) = mmul (mmul a b) c. Proof. vring. Qed.
Lemma mmul_I_l a : mmul mI a = a. Proof. vring. Qed.
Lemma mmul_I_r a : mmul a mI = a. Proof. vring. Qed.
Lemma mmul_0_l a : mmul m0 a = m0. Proof. vring. Qed.
Lemma mmul_0_r a : mmul a m0 = m0. Proof. vring. Qed.
Lemma madd_0_l a : madd m0 a = a. Proof. vring. Qed.
Lemma madd_0_r a : madd a m0 = a. Proof. vring. Qed.
Lemma madd_comm a b : madd a b = madd b a. Proof. vring. Qed.
Lemma madd_assoc a b c : madd a (madd b c) = madd (madd a b) c. Proof. vring. Qed.
Lemma mmul_add_l a b c : mmul (madd a b) c = madd (mmul a c) (mmul b c). Proof. vring. Qed.
Lemma mmul_add_r a b c : mmul a (madd b c) = madd (mmul a b) (mmul a c). Proof. vring. Qed.
Lemma mT_T a : mT (mT a) = a. Proof. vring. Qed.
Lemma mT_mul a b : mT (mmul a b) = mmul (mT b) (mT a). Proof. vring. Qed.
Lemma mT_add a b : mT (madd a b) = madd (mT a) (mT b). Proof. vring. Qed.
Lemma mT_I : mT mI = mI. Proof. reflexivity. Qed.
Lemma mT_0 : mT m0 = m0. Proof. reflexivity. Qed.
Lemma vdot_mapply a v w : vdot (mapply a v) w = vdot v (mapply (mT a) w). Proof. vring. Qed.

(* orthogonal matrices *)
Definition orth (a : mat3) : Prop := mmul (mT a) a = mI /\ mmul a (mT a) = mI.
Lemma orth_I : orth mI. Proof. split; vring. Qed.
Lemma orth_T a : orth a -> orth (mT a). Proof. intros [A B]. split; rewrite mT_T; assumption. Qed.
Lemma orth_mul a b : orth a -> orth b -> orth (mmul a b).
Proof.
  intros [A A'] [B B']. split; rewrite mT_mul.
  - rewrite mmul_assoc, <- (mmul_assoc (mT b)), A, mmul_I_r. exact B.
  - rewrite mmul_assoc, <- (mmul_assoc a b), B', mmul_I_r. exact A'.
Qed.
Lemma orth_dot a v w : orth a -> vdot (mapply a v) (mapply a w) = vdot v w.
Proof. intros [A _]. rewrite vdot_mapply, <- mapply_mul, A, mapply_I. reflexivity. Qed.

(* Eigen::Isometry3d: linear part and translation *)
Record iso := mkIso { lin : mat3; tr : vec3 }.
Definition iid : iso := mkIso mI v0.
Definition imul (a b : iso) : iso := mkIso (mmul (lin a) (lin b)) (vadd (mapply (lin a) (tr b)) (tr a)).
(* Transform::inverse() in mode Isometry: transposed linear part *)
Definition iinv (a : iso) : iso := mkIso (mT (lin a)) (vopp (mapply (mT (lin a)) (tr a))).
Definition iapp (a : iso) (p : vec3) : vec3 := vadd (mapply (lin a) p) (tr a).
Definition rigid (a : iso) : Prop := orth (lin a).

Lemma iapp_id p : iapp iid p = p. Proof. unfold iapp, iid. cbn [lin tr]. rewrite mapply_I. apply vadd_0_r. Qed.
Lemma iapp_mul a b p : iapp (imul a b) p = iapp a (iapp b p).
Proof. unfold iapp, imul. cbn [lin tr]. rewrite mapply_mul, mapply_add, vadd_assoc. reflexivity. Qed.
Lemma imul_assoc a b c : imul a (imul b c) = imul (imul a b) c.
Proof. unfold imul. cbn [lin tr]. rewrite mmul_assoc, mapply_add, mapply_mul, vadd_assoc. reflexivity. Qed.
Lemma imul_id_l a : imul iid a = a.
Proof. destruct a as [m t]. unfold imul, iid. cbn [lin tr]. rewrite mmul_I_l, mapply_I, vadd_0_r. reflexivity. Qed.
Lemma imul_id_r a : imul a iid = a.
Proof. destruct a as [m t]. unfold imul, iid. cbn [lin tr]. rewrite mmul_I_r. f_equal. vring. Qed.
Lemma imul_inv_r a : rigid a -> imul a (iinv a) = iid.
Proof. intros [_ B]. unfold imul, iinv, iid. cbn [lin tr]. rewrite B. f_equal. rewrite mapply_opp, <- mapply_mul, B, mapply_I, vadd_comm. apply vadd_opp_r. Qed.
Lemma imul_inv_l a : rigid a -> imul (iinv a) a = iid.
Proof. intros [A _]. unfold imul, iinv, iid. cbn [lin tr]. rewrite A. f_equal. apply vadd_opp_r. Qed.
Lemma iinv_inv a : rigid a -> iinv (iinv a) = a.
Proof. intros [A B]. destruct a as [m t]. unfold iinv. cbn [lin tr] in *. rewrite mT_T, mapply_opp, <- mapply_mul, B, mapply_I, vopp_opp. reflexivity. Qed.
Lemma rigid_id : rigid iid. Proof. apply orth_I. Qed.
Lemma rigid_mul a b : rigid a -> rigid b -> rigid (imul a b). Proof. apply orth_mul. Qed.
Lemma rigid_inv a : rigid a -> rigid (iinv a). Proof. apply orth_T. Qed.
Lemma iinv_mul a b : rigid a -> rigid b -> iinv (imul a b) = imul (iinv b) (iinv a).
Proof.
  intros A B. rewrite <- (imul_id_l (imul (iinv b) (iinv a))). rewrite <- (imul_inv_l (imul a b)) by (apply rigid_mul; assumption).
  rewrite <- imul_assoc, <- (imul_assoc a b), (imul_assoc b (iinv b)), (imul_inv_r b B), imul_id_l, (imul_inv_r a A), imul_id_r. reflexivity.
Qed.
Lemma iapp_inv a p : rigid a -> iapp a (iapp (iinv a) p) = p. Proof. intros H. rewrite <- iapp_mul, imul_inv_r by exact H. apply iapp_id. Qed.
Lemma iapp_inv' a p : rigid a -> iapp (iinv a) (iapp a p) = p. Proof. intros H. rewrite <- iapp_mul, imul_inv_l by exact H. apply iapp_id. Qed.
Lemma iapp_inj a p q : rigid a -> iapp a p = iapp a q -> p = q.
Proof. intros H E. rewrite <- (iapp_inv' a p H), <- (iapp_inv' a q H), E. reflexivity. Qed.
Lemma rigid_dist a p q : rigid a -> vnorm (vsub (iapp a p) (iapp a q)) = vnorm (vsub p q).
Proof.
  intros H. unfold vnorm. f_equal. assert (E : vsub (iapp a p) (iapp a q) = mapply (lin a) (vsub p q)) by (unfold iapp, vsub; destruct a as [m t]; cbn [lin tr]; vring).
  rewrite E. apply orth_dot. exact H.
Qed.

(* Eigen::Quaterniond: product, toRotationMatrix *)
Definition qI : quat := (1, 0, 0, 0).
Definition qmul (p q : quat) : quat :=
  let '(a, b, c, d) := p in let '(e, f, g, h) := q in
  (a * e - b * f - c * g - d * h, a * f + b * e + c * h - d * g, a * g - b * h + c * e + d * f, a * h + b * g - c * f + d * e).
Definition qconj (p : quat) : quat := let '(a, b, c, d) := p in (a, - b, - c, - d).
Definition qmat (q : quat) : mat3 :=
  let '(w, x, y, z) := q in
  ((1 - 2 * (y * y + z * z), 2 * (x * y - w * z), 2 * (x * z + w * y)),
   (2 * (x * y + w * z), 1 - 2 * (x * x + z * z), 2 * (y * z - w * x)),
   (2 * (x * z - w * y), 2 * (y * z + w * x), 1 - 2 * (x * x + y * y))).
Definition qunit (q : quat) : Prop := qdot q q = 1.
Lemma qunit_I : qunit qI. Proof. unfold qunit, qdot, qI. ring. Qed.
Lemma qunit_mul p q : qunit p -> qunit q -> qunit (qmul p q).
Proof.
  unfold qunit. intros A B. transitivity (qdot p p * qdot q q); [|rewrite A, B; ring]. vsplit. unfold qdot, qmul. ring.
Qed.
Lemma qunit_conj q : qunit q -> qunit (qconj q). Proof. unfold qunit. vsplit. unfold qdot, qconj. intros <-. ring. Qed.
(* a polynomial that vanishes with |q|^2 - 1 *)
Ltac by_unit H k := apply Rminus_diag_uniq; match type of H with ?n = 1 => replace 0 with (k * (n - 1)) by (rewrite H; ring) end; ring.
Lemma qmat_conj q : qmat (qconj q) = mT (qmat q). Proof. vsplit. unfold qmat, qconj, mT. tup; ring. Qed.
Lemma qmat_I : qmat qI = mI. Proof. unfold qmat, qI, mI. tup; ring. Qed.
Lemma qmat_neg q : qmat (qneg q) = qmat q. Proof. vsplit. unfold qmat, qneg. tup; ring. Qed.
Lemma qmat_mul p q : qunit p -> qunit q -> qmat (qmul p q) = mmul (qmat p) (qmat q).
Proof.
  unfold qunit. intros A B. destruct p as [[[w x] y] z], q as [[[e f] g] h]. cbn in A, B. unfold qmat, qmul. vred.
  assert (E : w * w = 1 - x * x - y * y - z * z) by lra. assert (F : e * e = 1 - f * f - g * g - h * h) by lra.
  tup; ring [E F].
Qed.
Lemma qmat_orth q : qunit q -> orth (qmat q).
Proof.
  intros H. assert (A : mmul (qmat q) (mT (qmat q)) = mI /\ mmul (mT (qmat q)) (qmat q) = mI); [|destruct A; split; assumption].
  rewrite <- qmat_conj. rewrite <- !qmat_mul by (try apply qunit_conj; assumption). rewrite <- qmat_I.
  split; f_equal; unfold qunit in H; destruct q as [[[w x] y] z]; cbn in H; unfold qmul, qconj, qI; tup; lra.
Qed.
(* GE 291-300: to_transform(t, q) *)
Definition to_transform (t : vec3) (q : quat) : iso := mkIso (qmat q) t.
Lemma rigid_to_transform t q : qunit q -> rigid (to_transform t q). Proof. apply qmat_orth. Qed.
