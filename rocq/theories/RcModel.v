(* Covariance of a lidar registration: serpent/include/serpent/front_end/lidar/registration_covariance-inl.hpp (RC),
   serpent/include/serpent/front_end/lidar/registration-inl.hpp (RG), eigen_ext/include/eigen_ext/precomputed_transform_components.hpp (PT),
   pointcloud_tools/include/pointcloud_tools/impl/registration_utilities.hpp (RU).
   Simplified throughout: exact real arithmetic instead of float/double; a value that the code computes by a division by zero, or by inverting
   a singular matrix, is no value at all (None). *)
From Coq Require Import Reals List Lia.
From Verif Require Import Base Mx Interp Geo EgModel RcGen.
Import ListNotations.
Open Scope R_scope.

(* PT 28-41: what is kept of the transform *)
Record comps := mkComps { c_r : vec3; c_t : vec3; c_a : R; c_sa : R; c_ca : R }.
(* std::atan2(y, x) for y > 0 and x >= 0, the only case met here *)
Definition atan2_pos (y x : R) : R := if Req_EM_T x 0 then PI / 2 else atan (y / x).
(* Eigen AngleAxis from a quaternion (AngleAxis::operator=(QuaternionBase)); the stableNorm fallback below machine epsilon is the same number here *)
Definition angle_axis (q : quat) : R * vec3 :=
  let '(w, x, y, z) := q in
  let n := vnorm (x, y, z) in
  if Req_EM_T n 0 then (0, (1, 0, 0))
  else (2 * atan2_pos n (Rabs w), vscale (/ (if Rlt_dec w 0 then - n else n)) (x, y, z)).
(* PT 33-42: from a transform; Eigen AngleAxis from a matrix goes through the quaternion *)
Definition components (m : iso) : comps :=
  let '(a, u) := angle_axis (quat_of (lin m)) in mkComps (vscale a u) (tr m) a (sin a) (cos a).
(* PT 44-55: from a rotation vector and a translation; the rotation matrix R_ it also computes is never read by the models below *)
Definition components_rt (r t : vec3) : comps := mkComps r t (vnorm r) (sin (vnorm r)) (cos (vnorm r)).

(* One correspondence: source point, target point, target normal, and the unit vectors of the two points (RC 20-32, 133-147) *)
Record corr := mkCorr { k_p : vec3; k_q : vec3; k_n : vec3; k_pu : vec3; k_qu : vec3 }.

Inductive icp := PointLinearised | PointNonlinear | PlaneLinearised | PlaneNonlinear.

Definition vouter (a b : vec3) : mat3 := let '(x, y, z) := a in (vscale x b, vscale y b, vscale z b).

(* RC 1880-1891 *)
Definition pt_lin_dx2 (p : vec3) : mx := let s := skew p in blocks (mmul (mopp s) s) s (mopp s) mI.
(* RC 1894-1907 *)
Definition pt_lin_dzdx (r t p q : vec3) : mx :=
  let s := skew p in
  blocks (madd (mmul s (skew r)) (skew (vadd (vsub (vcross p r) t) q))) (mopp s) (madd (skew r) mI) (mopp mI).
(* RC 4082-4096 *)
Definition pl_lin_dx2 (p n : vec3) : mx :=
  let c := vcross p n in let cn := vouter c n in blocks (vouter c c) cn (mT cn) (vouter n n).
(* RC 4098-4112 *)
Definition pl_lin_dzdx (r t p q n : vec3) : mx :=
  let c := vcross p n in let d := vadd (vcross n r) n in
  blocks (madd (mscale (vdot n (vsub (vsub q p) t) - vdot c r) (skew n)) (vouter c d)) (mopp (vouter c n)) (vouter n d) (mopp (vouter n n)).

(* RC 183-275 process_correspondence of the four models: half the second derivatives contributed by one correspondence. The nonlinear
   models divide by the angle: no number comes out where it is zero. *)
Definition half_dx2 (k : icp) (f : comps) (c : corr) : option mx :=
  let '(rx, ry, rz) := c_r f in let '(tx, ty, tz) := c_t f in
  let '(px, py, pz) := k_p c in let '(qx, qy, qz) := k_q c in let '(nx, ny, nz) := k_n c in
  match k with
  | PointLinearised => Some (pt_lin_dx2 (k_p c))
  | PlaneLinearised => Some (pl_lin_dx2 (k_p c) (k_n c))
  | PointNonlinear => if Req_EM_T (c_a f) 0 then None else Some (ptp_nl_dx2 rx ry rz tx ty tz px py pz qx qy qz (c_a f) (c_sa f) (c_ca f))
  | PlaneNonlinear => if Req_EM_T (c_a f) 0 then None else Some (ptpl_nl_dx2 rx ry rz tx ty tz px py pz qx qy qz nx ny nz (c_a f) (c_sa f) (c_ca f))
  end.
Definition half_dzdx (k : icp) (f : comps) (c : corr) : option mx :=
  let '(rx, ry, rz) := c_r f in let '(tx, ty, tz) := c_t f in
  let '(px, py, pz) := k_p c in let '(qx, qy, qz) := k_q c in let '(nx, ny, nz) := k_n c in
  match k with
  | PointLinearised => Some (pt_lin_dzdx (c_r f) (c_t f) (k_p c) (k_q c))
  | PlaneLinearised => Some (pl_lin_dzdx (c_r f) (c_t f) (k_p c) (k_q c) (k_n c))
  | PointNonlinear => if Req_EM_T (c_a f) 0 then None else Some (ptp_nl_dzdx rx ry rz tx ty tz px py pz qx qy qz (c_a f) (c_sa f) (c_ca f))
  | PlaneNonlinear => if Req_EM_T (c_a f) 0 then None else Some (ptpl_nl_dzdx rx ry rz tx ty tz px py pz qx qy qz nx ny nz (c_a f) (c_sa f) (c_ca f))
  end.

Definition obind {A B} (x : option A) (f : A -> option B) : option B := match x with Some a => f a | None => None end.
Definition zerom : mx := fun _ _ => 0.
Definition scalem (k : R) (m : mx) : mx := fun i j => k * m i j.

(* RC 24-33: the loop over the correspondences; sums the Hessian and puts the 6x6 blocks side by side *)
Fixpoint hessian (k : icp) (f : comps) (l : list corr) (acc : mx) : option mx :=
  match l with [] => Some acc | c :: l => obind (half_dx2 k f c) (fun h => hessian k f l (addm acc h)) end.
Fixpoint mixed (k : icp) (f : comps) (l : list corr) : option (list mx) :=
  match l with [] => Some [] | c :: l => obind (half_dzdx k f c) (fun d => obind (mixed k f l) (fun ds => Some (d :: ds))) end.
Definition side_by_side (ds : list mx) : mx := fun i j => nth (j / 6) ds zerom i (j mod 6)%nat.

Section Estimators.
  (* Eigen's Matrix::inverse on a 6x6: the inverse matrix, or no numbers *)
  Variable inverse : mx -> option mx.

  (* RC 8-37 censi_iid_covariance *)
  Definition censi_iid (k : icp) (f : comps) (l : list corr) (variance : R) : option mx :=
    obind (hessian k f l zerom) (fun h => obind (mixed k f l) (fun ds => obind (inverse h) (fun hi =>
      let d := side_by_side ds in
      Some (mulm 6 (mulm 6 (scalem variance hi) (mulm (6 * length l) d (trm d))) hi)))).

  (* RC 71-78, 92-95: the unit vectors stacked; entry j of correspondence j / 6 *)
  Definition stacked (l : list corr) (j : nat) : R :=
    match nth_error l (j / 6) with
    | Some c => if (j mod 6 <? 3)%nat then vget (k_pu c) (j mod 6) else vget (k_qu c) (j mod 6 - 3)
    | None => 0
    end.
  (* RC 80-95: Sigma_z, block diagonal with a 3x3 block per point *)
  Definition range_sigma (l : list corr) (variance : R) : mx :=
    fun i j => if Nat.eqb (i / 3) (j / 3) then variance * (stacked l i * stacked l j) else 0.
  (* RC 49-99 censi_range_covariance for points that carry unit vectors *)
  Definition censi_range (k : icp) (f : comps) (l : list corr) (variance : R) : option mx :=
    obind (hessian k f l zerom) (fun h => obind (mixed k f l) (fun ds => obind (inverse h) (fun hi =>
      let d := side_by_side ds in let n := (6 * length l)%nat in
      Some (mulm 6 (mulm 6 hi (mulm n (mulm n d (range_sigma l variance)) (trm d))) hi)))).

  (* RC 148-157 *)
  Definition bias_sigma (l : list corr) (variance bias : R) : mx :=
    fun i j => bias * (stacked l i * stacked l j) + (if Nat.eqb i j then variance * (stacked l i * stacked l i) else 0).
  (* RC 113-160 censi_range_bias_covariance *)
  Definition censi_bias (k : icp) (f : comps) (l : list corr) (variance bias : R) : option mx :=
    obind (hessian k f l zerom) (fun h => obind (mixed k f l) (fun ds => obind (inverse h) (fun hi =>
      let d := side_by_side ds in let n := (6 * length l)%nat in
      Some (mulm 6 (mulm 6 hi (mulm n (mulm n d (bias_sigma l variance bias)) (trm d))) hi)))).

  (* RC 162-189 lls_iid_covariance *)
  Definition lls_iid (k : icp) (f : comps) (l : list corr) (variance : R) : option mx :=
    obind (hessian k f l zerom) (fun h => obind (inverse h) (fun hi => Some (scalem variance hi))).
End Estimators.
