(* The graph that the IMU measurements should give: a state every ten measurements. *)
From Coq Require Import ZArith Reals List.
From Verif Require Import Base Mx Interp Geo EgModel CvModel MsModel NvModel NvSpec GtModel.
Import ListNotations.

Section S.
Context {pim : Type}.
Variable add : pim -> vec3 -> vec3 -> R -> pim.
Variable predict : pim -> nav -> nav.
Variable p0 : pim.
Variable x0 : nav.
Variable T : list (vec3 * vec3 * R). (* the measurements with the time each stands for *)
(* the measurements between state n and state n+1 *)
Definition group (n : nat) : list (vec3 * vec3 * R) := firstn 10 (skipn (10 * n) T).
(* state n, predicted from one to the next *)
Fixpoint predicted (n : nat) : nav := match n with O => x0 | S n => predict (feed add p0 (group n)) (predicted n) end.
Definition state_values (n : nat) : values :=
  let x := predicted n in [(X (Z.of_nat n), VPose (n_rot x) (n_pos x)); (V (Z.of_nat n), VVel (n_vel x)); (B (Z.of_nat n), VBias)].
(* the measurements between two states tie the one to the other *)
Definition between (n : nat) : factor pim :=
  Imu (X (Z.of_nat n)) (V (Z.of_nat n)) (X (Z.of_nat (S n))) (V (Z.of_nat (S n))) (B (Z.of_nat n)) (B (Z.of_nat (S n))) (feed add p0 (group n)).
Definition priors : list (factor pim) := [Prior (X 0) (VPose (n_rot x0) (n_pos x0)) (1 / 1000); Prior (V 0) (VVel (n_vel x0)) (1 / 1000); Prior (B 0) VBias (1 / 10000)].
(* n states after the first *)
Definition graph_values (n : nat) : values := flat_map state_values (seq 0 (S n)).
Definition graph_factors (n : nat) : list (factor pim) := priors ++ map between (seq 0 n).
End S.
