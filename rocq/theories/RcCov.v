(* What the estimators are judged against. *)
From Coq Require Import Reals List.
From Verif Require Import Base Mx Interp Geo RcModel RcSpec.
Import ListNotations.
Open Scope R_scope.

(* Eigen's inverse: the inverse where there is one, no numbers where there is none *)
Definition inverts (inverse : mx -> option mx) : Prop := forall M, match inverse M with Some B => inverse_of 6 M B | None => forall B, ~ inverse_of 6 M B end.

Definition linearised (k : icp) : Prop := k = PointLinearised \/ k = PlaneLinearised.
Definition nonlinear (k : icp) : Prop := k = PointNonlinear \/ k = PlaneNonlinear.
(* the cost of a correspondence, as a function of motion and the two points *)
Definition cost_of (k : icp) (n : vec3) : vec3 -> vec3 -> vec3 -> vec3 -> R :=
  match k with PointLinearised => point_cost turn1 | PointNonlinear => point_cost turn | PlaneLinearised => plane_cost turn1 n | PlaneNonlinear => plane_cost turn n end.
(* the registration cost, and the measurements with coordinate j moved by y: six coordinates per correspondence, source point then target point *)
Fixpoint total (k : icp) (l : list corr) (r t : vec3) : R := match l with [] => 0 | c :: l => cost_of k (k_n c) r t (k_p c) (k_q c) + total k l r t end.
Fixpoint shift (l : list corr) (j : nat) (y : R) : list corr :=
  match l with
  | [] => []
  | c :: l => if (j <? 6)%nat then mkCorr (move (k_p c) y (fst_dir j)) (move (k_q c) y (snd_dir j)) (k_n c) (k_pu c) (k_qu c) :: l else c :: shift l (j - 6) y
  end.
Definition half_total_hessian (k : icp) (l : list corr) (r t : vec3) (H : mx) : Prop :=
  forall i j, (i < 6)%nat -> (j < 6)%nat -> mixed2 (fun x y => total k l (move (move r x (fst_dir i)) y (fst_dir j)) (move (move t x (snd_dir i)) y (snd_dir j))) (2 * H i j).
Definition half_total_cross (k : icp) (l : list corr) (r t : vec3) (D : mx) : Prop :=
  forall i j, (i < 6)%nat -> (j < 6 * length l)%nat -> mixed2 (fun x y => total k (shift l j y) (move r x (fst_dir i)) (move t x (snd_dir i))) (2 * D i j).

(* covariance of the measured points for independent range noise along the rays *)
Definition ray (l : list corr) (j : nat) : R :=
  match nth_error l (j / 6) with
  | Some c => let u := if (j mod 6 <? 3)%nat then k_pu c else k_qu c in let '(x, y, z) := u in match (j mod 3)%nat with 0%nat => x | 1%nat => y | _ => z end
  | None => 0
  end.
Definition independent_ranges (l : list corr) (v : R) : mx := fun i j => if Nat.eqb (i / 3) (j / 3) then v * (ray l i * ray l j) else 0.
(* and with an error common to all ranges added *)
Definition biased_ranges (l : list corr) (v b : R) : mx := fun i j => independent_ranges l v i j + b * (ray l i * ray l j).

(* Censi's formula: inverse Hessian, mixed derivative, measurement covariance; H and D are the whole derivatives, not halves *)
Definition censi_formula (H D S : mx) (m : nat) (C : mx) : Prop :=
  exists B, inverse_of 6 H B /\ eqm 6 6 C (mulm 6 (mulm 6 B (mulm m (mulm m D S) (trm D))) B).

(* the cost does not pin the motion down: all source points on one line; or some small motion keeps every point in its plane *)
Definition on_a_line (l : list corr) : Prop := exists u v, u <> v0 /\ forall c, In c l -> vcross u (k_p c) = v.
Definition slides (l : list corr) : Prop := exists u v, (u <> v0 \/ v <> v0) /\ forall c, In c l -> vdot (k_n c) (vadd (vcross u (k_p c)) v) = 0.
