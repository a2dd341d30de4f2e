(* The hypotheses of the theorems on moving clouds are met; what happens without copying, and what check_normals and ns_to_s overlook. *)
From Coq Require Import Reals List Lra Lia Psatz.
From Verif Require Import Base Interp Geo EgModel TfModel TfSpec TfProofs.
Import ListNotations.
Open Scope R_scope.

(* a quarter turn about z and a step *)
Definition quarter : iso := mkIso ((0, -1, 0), (1, 0, 0), (0, 0, 1)) (5, 0, 0).
Lemma quarter_rigid : rigid quarter. Proof. unfold rigid, orth, quarter. cbn [lin]. split; vring. Qed.
Definition nowhere : fvec := (None, None, None).
Definition here : pnu := mkPnu (fin (1, 2, 3)) (fin (1, 0, 0)) (Some 7) (fin (0, 1, 0)).
Definition gone : pnu := mkPnu nowhere (fin (1, 0, 0)) (Some 8) (fin (0, 0, 1)).
Definition scan (dense : bool) : cloud pnu := mkCloud 7 2 1 dense 0 [here; gone].
Example scan_case : rigid quarter /\ (forall a, In a (k_points (scan false)) -> whole_unit a) /\
  k_points (transform_pointcloud_unit quarter (scan false) (scan true)) = [mkPnu (fin (3, 1, 3)) (fin (0, 1, 0)) (Some 7) (fin (-1, 0, 0)); gone] /\
  k_points (transform_pointcloud_unit quarter (scan true) (scan false)) = [mkPnu (fin (3, 1, 3)) (fin (0, 1, 0)) (Some 7) (fin (-1, 0, 0)); mkPnu nowhere (fin (0, 1, 0)) (Some 8) (fin (0, 0, 1))].
Proof.
  split; [apply quarter_rigid|]. split.
  - intros a [<-|[<-|[]]]; unfold whole_unit, whole, is_finite, no_finite; cbn [u_pos u_nrm u_unit here gone]; repeat split; first [right; reflexivity|left; eexists; reflexivity].
  - unfold gone, nowhere. split; cbn; repeat (f_equal; try reflexivity); unfold write_unit; cbn; repeat (f_equal; try reflexivity); ring.
Qed.
(* a covariance *)
Definition spread : pnc := mkPnc (fin (1, 2, 3)) (fin (1, 0, 0)) (Some 7) (mkCov (Some 4) (Some 1) (Some 0) (Some 9) (Some 0) (Some 1)).
Example spread_case : is_cov (c_cov spread) ((4, 1, 0), (1, 9, 0), (0, 0, 1)) /\
  c_cov (write_cov quarter spread spread) = mkCov (Some 9) (Some (-1)) (Some 0) (Some 4) (Some 0) (Some 1).
Proof. split; [cbn; repeat split|]. unfold write_cov. cbn. f_equal; f_equal; ring. Qed.
(* without copy_all_fields the points without a position of a cloud that says it has such points are not those of the input *)
Lemma not_copied_refuted : exists inp out : cloud pnu, k_dense inp = false /\
  ~ moved_cloud u_pos (moved_unit quarter) inp (transform_cloud pnu_default u_pos (write_unit quarter) false inp out).
Proof.
  exists (scan false), (mkCloud 0 0 0 true 0 []). split; [reflexivity|]. intros [_ [_ [_ [_ [_ [_ H]]]]]]. destruct (H 1%nat gone eq_refl) as [b [E [_ F]]].
  cbn in E. specialize (F (conj eq_refl none_not_finite)). rewrite F in E. cbn in E. discriminate.
Qed.
(* check_normals finds nothing wrong in a cloud without any normals *)
Lemma nan_normals_refuted : exists l : list (bool * fvec), l <> [] /\ (forall n v, In (n, v) l -> ~ is_finite v) /\ check_normals 0 l = 0%nat.
Proof. exists [(true, nowhere)]. split; [discriminate|]. split; [|reflexivity]. intros n v [[= <- <-]|[]]. apply none_not_finite. Qed.
Example check_case : check_normals (1 / 10) [(false, fin (1, 0, 0)); (false, fin (2, 0, 0)); (true, nowhere); (false, nowhere)] = 2%nat.
Proof.
  assert (N : forall a, vnorm (a, 0, 0) = Rabs a) by (intros a; unfold vnorm; replace (vdot (a, 0, 0) (a, 0, 0)) with (Rsqr a) by (unfold Rsqr; cbn; ring); apply sqrt_Rsqr_abs).
  cbn [check_normals counted fin nowhere negb]. rewrite !N. rewrite (Rabs_right 1), (Rabs_right 2) by lra. destruct (Rlt_dec (1 / 10) (Rabs (1 - 1))) as [L|_]; [exfalso; revert L; replace (1 - 1) with 0 by ring; rewrite Rabs_R0; lra|].
  destruct (Rlt_dec (1 / 10) (Rabs (2 - 1))) as [_|L]; [reflexivity|]. exfalso. apply L. replace (2 - 1) with 1 by ring. rewrite Rabs_R1. lra.
Qed.
(* ns_to_s on an integer field forgets everything below a second *)
Lemma integer_times_refuted : exists l : list Z, ns_to_s_int l = [0%Z] /\ ns_to_s (map IZR l) <> [0].
Proof. exists [999999999%Z]. split; [reflexivity|]. cbn. intros [= E]. lra. Qed.
