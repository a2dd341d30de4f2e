(* Properties C34 and C61 (stereo geometry, real-valued costs). Proofs in StGeom.v and StCostR.v. *)
From Verif Require Import Base StModel StSpec StCost StCostR StGeom.
From Coq Require Import Reals.
Open Scope R_scope.

(* C34 *)
Theorem C34_throws :
  forall (c : vec3) (K : cam) (b : R), stereo_backproject c K b = Throw <-> v0 c = v1 c.
Proof. exact backproject_throws. Qed.
Theorem C34_project_backproject :
  forall (c : vec3) (K : cam) (b : R) (p : vec3),
    0 < fx K -> fy K <> 0 -> 0 < b -> v1 c < v0 c -> stereo_backproject c K b = Ok p -> 0 < v2 p /\ project_with 2 p K b = Ok c.
Proof. exact project_backproject. Qed.
Theorem C34_backproject_project :
  forall (p : vec3) (K : cam) (b : R),
    fx K <> 0 -> fy K <> 0 -> b <> 0 -> 0 < v2 p -> exists c : vec3, project_with 2 p K b = Ok c /\ stereo_backproject c K b = Ok p.
Proof. exact backproject_project. Qed.
Theorem C34_disparity :
  forall (p : vec3) (K : cam) (b : R) (c : vec3), project_with 2 p K b = Ok c -> v0 c - v1 c = fx K * b / v2 p.
Proof. exact disparity_depth. Qed.
Theorem C34_depth_filter :
  forall (qfx qb mx mn : Q) (x y : kp) (K : cam) (p : vec3),
    fx K = Q2R qfx ->
    (px (kpt y) < px (kpt x))%Q ->
    stereo_backproject {| v0 := Q2R (px (kpt x)); v1 := Q2R (px (kpt y)); v2 := Q2R (py (kpt x)) |} K (Q2R qb) = Ok p ->
    depth_test (sdf_make qfx qb mx mn) x y = true <-> Q2R mn <= v2 p <= Q2R mx.
Proof. exact depth_filter_is_backprojected_depth. Qed.
Theorem C34_index_refuted :
  forall (p : vec3) (K : cam) (b : R), stereo_project p K b = UB.
Proof. exact project_ub. Qed.

(* C61, normalised costs with accumulators that start at zero *)
Theorem C61_zero_mean :
  forall (im1 im2 : image) (a b w : Z * Z),
    i8u im1 = true ->
    i8u im2 = true ->
    inside im1 a w ->
    inside im2 b w ->
    (0 < fst w)%Z ->
    (0 < snd w)%Z -> exists c : R, zmsad 0 0 im1 im2 a b w = Ok c /\ 0 <= c /\ (c = 0 <-> (exists d : R, shifted im1 im2 a b w d)).
Proof. exact zmsad_zero. Qed.
Theorem C61_scaled :
  forall (im1 im2 : image) (a b w : Z * Z),
    i8u im1 = true ->
    i8u im2 = true ->
    inside im1 a w ->
    inside im2 b w ->
    (0 < fst w)%Z ->
    (0 < snd w)%Z ->
    S2 im2 b w <> 0 -> exists c : R, lssad 0 0 im1 im2 a b w = Ok (Some c) /\ 0 <= c /\ (c = 0 <-> (exists k : R, scaled im1 im2 a b w k)).
Proof. exact lssad_zero. Qed.
Theorem C61_black :
  forall (im1 im2 : image) (a b w : Z * Z),
    i8u im1 = true ->
    i8u im2 = true ->
    inside im1 a w -> inside im2 b w -> (0 < fst w)%Z -> (0 < snd w)%Z -> forall j1 : R, S2 im2 b w = 0 -> lssad j1 0 im1 im2 a b w = Ok None.
Proof. exact lssad_black. Qed.
Theorem C61_correlation :
  forall (im1 im2 : image) (a b w : Z * Z),
    i8u im1 = true ->
    i8u im2 = true ->
    inside im1 a w ->
    inside im2 b w ->
    exists o : option R,
      nncc 0 0 im1 im2 a b w = Ok o /\
      (o = None <-> Q1 im1 a w = 0 \/ Q2 im2 b w = 0) /\
      (forall c : R, o = Some c -> -1 <= c <= 1 /\ (c = -1 <-> (exists k : R, 0 < k /\ scaled im1 im2 a b w k))).
Proof. exact nncc_range. Qed.

(* C61, with the accumulators as they are *)
Theorem C61_uninitialised_refuted :
  exists (j1 j2 : R) (im : image) (a w : Z * Z) (c : R), inside im a w /\ zmsad j1 j2 im im a a w = Ok c /\ c <> 0.
Proof. exact zmsad_junk_refuted. Qed.

Print Assumptions C34_throws.
Print Assumptions C34_project_backproject.
Print Assumptions C34_backproject_project.
Print Assumptions C34_disparity.
Print Assumptions C34_depth_filter.
Print Assumptions C34_index_refuted.
Print Assumptions C61_zero_mean.
Print Assumptions C61_scaled.
Print Assumptions C61_black.
Print Assumptions C61_correlation.
Print Assumptions C61_uninitialised_refuted.
