(* Stereo back-projection and projection (stereo_equations-inl.hpp = SE), C34.  Scalar is read as R. *)
From Verif Require Import Base StModel StSpec StFilter.
From Coq Require Import Reals Qreals Lra.
Open Scope R_scope.

Record vec3 := V3 { v0 : R; v1 : R; v2 : R }.
(* point[i] on an Eigen::Matrix<Scalar, 3, 1>: past the end is undefined (assertions off) *)
Definition coeff (p : vec3) (i : Z) : res R :=
  if (i =? 0)%Z then Ok (v0 p) else if (i =? 1)%Z then Ok (v1 p) else if (i =? 2)%Z then Ok (v2 p) else UB.
(* the entries of the intrinsic matrix that are read: (0,0) (1,1) (0,2) (1,2) *)
Record cam := Cam { fx : R; fy : R; cx : R; cy : R }.

(* stereo_backproject (SE 8-20); coordinate = (u_left, u_right, v) *)
Definition stereo_backproject (c : vec3) (K : cam) (b : R) : res vec3 :=
  let d := v0 c - v1 c in
  if Req_EM_T d 0 then Throw
  else Ok (V3 (b * (v0 c - cx K) / d) (b * (fx K * (v2 c - cy K) / fy K) / d) (b * fx K / d)).
(* stereo_project (SE 22-33) with the index it uses for the depth as a parameter *)
Definition project_with (iz : Z) (p : vec3) (K : cam) (b : R) : res vec3 :=
  rbind (coeff p iz) (fun z =>
  if Rle_dec z 0 then Throw
  else Ok (V3 (cx K + fx K * v0 p / z) (cx K + fx K * (v0 p - b) / z) (cy K + fy K * v1 p / z))).
(* the code reads point[3] *)
Definition stereo_project : vec3 -> cam -> R -> res vec3 := project_with 3.

Theorem project_ub p K b : stereo_project p K b = UB.
Proof. reflexivity. Qed.

Theorem backproject_throws c K b : stereo_backproject c K b = Throw <-> v0 c = v1 c.
Proof. unfold stereo_backproject. destruct (Req_EM_T _ _) as [E|E]; split; intros; try reflexivity; try discriminate; lra. Qed.
Theorem backproject_defined c K b : v0 c <> v1 c -> exists p, stereo_backproject c K b = Ok p.
Proof. intros N. unfold stereo_backproject. destruct (Req_EM_T _ _) as [E|E]; [lra | eexists; reflexivity]. Qed.

(* projecting with the third component as the depth *)
Theorem project_backproject c K b p : 0 < fx K -> fy K <> 0 -> 0 < b -> v1 c < v0 c ->
  stereo_backproject c K b = Ok p -> 0 < v2 p /\ project_with 2 p K b = Ok c.
Proof.
  intros F FY B D. unfold stereo_backproject. destruct (Req_EM_T _ _) as [E|E]; [lra|]. intros [= <-].
  assert (Z : 0 < b * fx K / (v0 c - v1 c)).
  { unfold Rdiv. apply Rmult_lt_0_compat; [nra|]. apply Rinv_0_lt_compat. lra. }
  split; [exact Z|]. unfold project_with. cbn [coeff Z.eqb Pos.eqb rbind v2].
  destruct (Rle_dec _ _) as [L|L]; [exfalso; lra|]. f_equal. destruct c as [u1 u2 v]. cbn in *.
  f_equal; field; repeat split; lra.
Qed.
Theorem backproject_project p K b : fx K <> 0 -> fy K <> 0 -> b <> 0 -> 0 < v2 p ->
  exists c, project_with 2 p K b = Ok c /\ stereo_backproject c K b = Ok p.
Proof.
  intros F FY B Z. unfold project_with. cbn [coeff Z.eqb Pos.eqb rbind]. destruct (Rle_dec _ _) as [L|L]; [lra|].
  eexists. split; [reflexivity|]. unfold stereo_backproject. cbn [v0 v1 v2].
  replace (cx K + fx K * v0 p / v2 p - (cx K + fx K * (v0 p - b) / v2 p)) with (fx K * b / v2 p) by (field; lra).
  destruct (Req_EM_T _ _) as [E|E].
  - exfalso. assert (fx K * b / v2 p * v2 p = 0) by (rewrite E; ring).
    replace (fx K * b / v2 p * v2 p) with (fx K * b) in H by (field; lra). apply Rmult_integral in H. tauto.
  - f_equal. destruct p as [x y z]. cbn in *. f_equal; field; repeat split; assumption || lra.
Qed.
(* the disparity of a projected point is fx * baseline / depth *)
Theorem disparity_depth p K b c : project_with 2 p K b = Ok c -> v0 c - v1 c = fx K * b / v2 p.
Proof.
  unfold project_with. cbn [coeff Z.eqb Pos.eqb rbind]. destruct (Rle_dec _ _) as [L|L]; [discriminate|].
  intros [= <-]. cbn. field. lra.
Qed.

(* the distance filter (StereoDistanceFilter) keeps exactly the matches whose back-projected depth is in its range *)
Theorem depth_filter_is_backprojected_depth (qfx qb mx mn : Q) (x y : kp) K p :
  fx K = Q2R qfx -> (px (kpt y) < px (kpt x))%Q ->
  stereo_backproject (V3 (Q2R (px (kpt x))) (Q2R (px (kpt y))) (Q2R (py (kpt x)))) K (Q2R qb) = Ok p ->
  (depth_test (sdf_make qfx qb mx mn) x y = true <-> Q2R mn <= v2 p <= Q2R mx).
Proof.
  intros FX D. unfold stereo_backproject. cbn [v0 v1 v2]. destruct (Req_EM_T _ _) as [E|E]; [discriminate|]. intros [= <-]. cbn [v2].
  rewrite depth_test_spec. unfold in_range, sdf_make. cbn [s_fxb s_min s_max]. rewrite FX.
  set (a := px (kpt x)) in *. set (b := px (kpt y)) in *.
  assert (DP : 0 < Q2R a - Q2R b) by (apply Qlt_Rlt in D; lra).
  assert (Eq : forall q, (q * (a - b) <= qfx * qb)%Q <-> Q2R q <= Q2R qb * Q2R qfx / (Q2R a - Q2R b)).
  { intros q. split; intros H.
    - apply Qle_Rle in H. rewrite !Q2R_mult, Q2R_minus in H. apply (Rmult_le_reg_r (Q2R a - Q2R b)); [exact DP|].
      unfold Rdiv. rewrite Rmult_assoc, Rinv_l by lra. lra.
    - apply Rle_Qle. rewrite !Q2R_mult, Q2R_minus. apply (Rmult_le_compat_r (Q2R a - Q2R b)) in H; [|lra].
      unfold Rdiv in H. rewrite (Rmult_assoc (Q2R qb * Q2R qfx)), Rinv_l in H by lra. lra. }
  assert (Eq' : forall q, (qfx * qb <= q * (a - b))%Q <-> Q2R qb * Q2R qfx / (Q2R a - Q2R b) <= Q2R q).
  { intros q. split; intros H.
    - apply Qle_Rle in H. rewrite !Q2R_mult, Q2R_minus in H. apply (Rmult_le_reg_r (Q2R a - Q2R b)); [exact DP|].
      unfold Rdiv. rewrite Rmult_assoc, Rinv_l by lra. lra.
    - apply Rle_Qle. rewrite !Q2R_mult, Q2R_minus. apply (Rmult_le_compat_r (Q2R a - Q2R b)) in H; [|lra].
      unfold Rdiv in H. rewrite (Rmult_assoc (Q2R qb * Q2R qfx)), Rinv_l in H by lra. lra. }
  rewrite Eq, Eq'. tauto.
Qed.
(* a camera, a point and a match meeting the hypotheses *)
Definition cam0 : cam := Cam 10 12 6 4.
Example geom_case : stereo_backproject (V3 8 6 4) cam0 2 = Ok (V3 2 0 10) /\ project_with 2 (V3 2 0 10) cam0 2 = Ok (V3 8 6 4).
Proof.
  unfold stereo_backproject, project_with. cbn [coeff Z.eqb Pos.eqb rbind v0 v1 v2 cam0 fx fy cx cy]. split.
  - destruct (Req_EM_T _ _) as [E|E]; [lra|]. f_equal. f_equal; field.
  - destruct (Rle_dec _ _) as [E|E]; [lra|]. f_equal. f_equal; field.
Qed.
