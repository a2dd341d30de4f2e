(* What is asked of the pairs of points and of the covariance published with a registration. *)
From Coq Require Import Reals Qreals QArith.
From Verif Require Import Base Mx Interp Geo CfgModel RcModel RcSpec RcCov RcRegModel.
Import ListNotations.
Open Scope string_scope.
Open Scope list_scope.
Open Scope R_scope.

Definition distance (p q : vec3) : R := vnorm (vsub p q).
(* nearest neighbour search: finds a neighbour unless there is no point, it is in the cloud, no point is nearer, and the distance is squared *)
Definition finds_nearest (nearest : list rpt -> vec3 -> option (nat * R)) : Prop :=
  forall cloud p, match nearest cloud p with
  | None => cloud = []
  | Some (j, d) => exists q, nth_error cloud j = Some q /\ d = distance (p_x q) p * distance (p_x q) p /\ forall q', In q' cloud -> distance (p_x q) p <= distance (p_x q') p
  end.
(* the same among the points with the given indices *)
Definition finds_nearest_among (among : list rpt -> list nat -> vec3 -> option (nat * R)) : Prop :=
  forall cloud indices p, (forall k, In k indices -> (k < length cloud)%nat) -> match among cloud indices p with
  | None => indices = []
  | Some (j, d) => In j indices /\ exists q, nth_error cloud j = Some q /\ d = distance (p_x q) p * distance (p_x q) p /\
      forall i q', In i indices -> nth_error cloud i = Some q' -> distance (p_x q) p <= distance (p_x q') p
  end.
(* (s, t) is a correspondence: no target point is nearer to the moved source point, and it is not too far *)
Definition matched (place : vec3 -> vec3) (target : list rpt) (max : R) (s t : rpt) : Prop :=
  In t target /\ distance (p_x t) (place (p_x s)) <= max /\ forall t', In t' target -> distance (p_x t) (place (p_x s)) <= distance (p_x t') (place (p_x s)).
(* every source point with some target point in reach is matched once, no other is *)
Definition all_matched (place : vec3 -> vec3) (source target : list rpt) (max : R) (l : list (nat * nat)) : Prop :=
  NoDup (map fst l) /\
  (forall i j, In (i, j) l -> exists s t, nth_error source i = Some s /\ nth_error target j = Some t /\ matched place target max s t) /\
  (forall i s t, nth_error source i = Some s -> In t target -> distance (p_x t) (place (p_x s)) <= max -> exists j, In (i, j) l).
(* the other way round: every target point with some indexed source point in reach is matched once, with the nearest such source point *)
Definition all_matched_back (place : vec3 -> vec3) (source : list rpt) (indices : list nat) (target : list rpt) (max : R) (l : list (nat * nat)) : Prop :=
  NoDup (map snd l) /\
  (forall i j, In (i, j) l -> exists s t, In i indices /\ nth_error source i = Some s /\ nth_error target j = Some t /\ distance (p_x t) (place (p_x s)) <= max /\
     forall i' s', In i' indices -> nth_error source i' = Some s' -> distance (p_x t) (place (p_x s)) <= distance (p_x t) (place (p_x s'))) /\
  (forall j t i s, nth_error target j = Some t -> In i indices -> nth_error source i = Some s -> distance (p_x t) (place (p_x s)) <= max -> exists i', In (i', j) l).
(* the correspondence read off a pair *)
Definition of_pair (source target : list rpt) (ij : nat * nat) (c : corr) : Prop :=
  exists s t, nth_error source (fst ij) = Some s /\ nth_error target (snd ij) = Some t /\ k_p c = p_x s /\ k_q c = p_x t /\ k_n c = p_n t /\ k_pu c = p_u s /\ k_qu c = p_u t.
Definition whole {A} (l : list A) : list nat := seq 0 (length l).

(* the same noise in every coordinate *)
Definition same_noise (v : R) : mx := fun i j => if Nat.eqb i j then v else 0.
(* rotation first, then translation *)
Definition diagonal (a b : R) : mx := fun i j => if Nat.eqb i j then (if (i <? 3)%nat then a else b) else 0.
(* an error common to all ranges, plus an error of every coordinate of its own *)
Definition coordinate_noise (l : list corr) (v b : R) : mx := fun i j => b * (ray l i * ray l j) + (if Nat.eqb i j then v * (ray l i * ray l i) else 0).

(* the settings under registration_covariance *)
Definition setting (P : params) (k d : string) : string := p_str P ("registration_covariance/" ++ k)%string d.
Definition noise (P : params) (k : string) (d : Q) : R := Q2R (p_num P k d).
Definition method_is (P : params) (s : string) : Prop := setting P "method" "CENSI" = s.
Definition points_are (P : params) (s : string) : Prop := setting P "point_covariance/method" "RANGE" = s.
Definition model_names : list (string * icp) :=
  [("POINT_TO_POINT_LINEARISED", PointLinearised); ("POINT_TO_POINT_NONLINEAR", PointNonlinear);
   ("POINT_TO_PLANE_LINEARISED", PlaneLinearised); ("POINT_TO_PLANE_NONLINEAR", PlaneNonlinear)].
Definition model_is (P : params) (k : icp) : Prop := In (setting P "model" "POINT_TO_PLANE_LINEARISED", k) model_names.
Definition squared (x : R) : R := x * x.
(* S: the covariance of the measured points that the settings describe *)
Definition measurement_noise (P : params) (l : list corr) (S : mx) : Prop :=
  (points_are P "CONSTANT" -> S = same_noise (squared (noise P "registration_covariance/point_covariance/constant" (5#100)))) /\
  (points_are P "VOXEL_SIZE" -> S = same_noise (squared (noise P "voxel_grid_filter/leaf_size" (1#10)))) /\
  (points_are P "RANGE" -> S = independent_ranges l (squared (noise P "registration_covariance/point_covariance/range_noise" (5#100)))) /\
  (points_are P "RANGE_BIAS" -> S = coordinate_noise l (squared (noise P "registration_covariance/point_covariance/range_noise" (5#100)))
                                                      (squared (noise P "registration_covariance/point_covariance/range_bias_noise" (2#100)))).
(* C: the covariance the settings ask for, at rotation vector r and translation t *)
Definition asked_for (P : params) (l : list corr) (r t : vec3) (C : mx) : Prop :=
  (method_is P "CONSTANT" -> eqm 6 6 C (diagonal (squared (noise P "registration_covariance/constant/rotation" (174533#10000000)))
                                                 (squared (noise P "registration_covariance/constant/translation" (1#100))))) /\
  (method_is P "CENSI" -> exists k H D S, model_is P k /\ half_total_hessian k l r t H /\ half_total_cross k l r t D /\ measurement_noise P l S /\
     censi_formula (scalem 2 H) (scalem 2 D) S (6 * length l) C) /\
  (method_is P "LLS" -> exists k H v, model_is P k /\ half_total_hessian k l r t H /\ measurement_noise P l (same_noise v) /\
     eqm 6 6 (mulm 6 C H) (same_noise v) /\ eqm 6 6 (mulm 6 H C) (same_noise v)).
(* the motion does not follow from the matched points *)
Definition degenerate (k : icp) (l : list corr) : Prop := match k with PointLinearised => on_a_line l | _ => slides l end.
