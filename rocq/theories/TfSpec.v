(* What moving a cloud by a rigid transform should do to each point. *)
From Coq Require Import Reals List.
From Verif Require Import Base Interp Geo TfModel.
Open Scope R_scope.

Definition no_finite (v : fvec) : Prop := v = (None, None, None).
Definition is_finite (v : fvec) : Prop := exists x, v = fin x.
(* a vector field of a point after a linear map: finite vectors are mapped, others stay not finite *)
Definition mapped (m : vec3 -> vec3) (v w : fvec) : Prop := (forall x, v = fin x -> w = fin (m x)) /\ (~ is_finite v -> no_finite w).
(* points with a position *)
Definition moved_unit (t : iso) (a b : pnu) : Prop :=
  mapped (iapp t) (u_pos a) (u_pos b) /\ mapped (mapply (lin t)) (u_nrm a) (u_nrm b) /\ mapped (mapply (lin t)) (u_unit a) (u_unit b).
(* a covariance matrix of finite numbers *)
Definition is_cov (c : cov6) (m : mat3) : Prop :=
  let '((a, b, d), (b', e, f), (d', f', g)) := m in b = b' /\ d = d' /\ f = f' /\ c = mkCov (Some a) (Some b) (Some d) (Some e) (Some f) (Some g).
(* variance along a direction *)
Definition variance (m : mat3) (u : vec3) : R := vdot u (mapply m u).
Definition moved_cov (t : iso) (a b : pnc) : Prop :=
  mapped (iapp t) (c_pos a) (c_pos b) /\ mapped (mapply (lin t)) (c_nrm a) (c_nrm b) /\
  (forall m, is_cov (c_cov a) m -> exists m', is_cov (c_cov b) m' /\ forall u, variance m' (mapply (lin t) u) = variance m u).
Definition moved_normal {A} (t : iso) (a b : pn A) : Prop := mapped (iapp t) (n_pos a) (n_pos b) /\ mapped (mapply (lin t)) (n_nrm a) (n_nrm b).
(* the cloud r is the cloud c with each point moved; points without a position in a cloud that says it may have such points are kept *)
Definition moved_cloud {P} (pos : P -> fvec) (moved : P -> P -> Prop) (c r : cloud P) : Prop :=
  k_header r = k_header c /\ k_width r = k_width c /\ k_height r = k_height c /\ k_dense r = k_dense c /\ k_sensor r = k_sensor c /\
  length (k_points r) = length (k_points c) /\
  forall i a, nth_error (k_points c) i = Some a -> exists b, nth_error (k_points r) i = Some b /\
    (k_dense c = true \/ is_finite (pos a) -> moved a b) /\ (k_dense c = false /\ ~ is_finite (pos a) -> b = a).
(* all components finite or none *)
Definition whole (v : fvec) : Prop := is_finite v \/ no_finite v.
