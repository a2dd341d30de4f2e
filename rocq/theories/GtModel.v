(* The IMU integrator with a factor graph beside it: navigation_tools/src/integrate_imu_graph_test.cpp (GT), integrate_imu_graph_test.hpp.
   The file is not among the sources of any target in navigation_tools/CMakeLists.txt.  What it prints on the console is left out. *)
From Coq Require Import ZArith Reals List Bool.
From Verif Require Import Base Mx Interp Geo EgModel CvModel MsModel NvModel.
Import ListNotations.
Open Scope Z_scope.

(* hpp 23-25: symbols of pose, velocity and bias of a state *)
Inductive key := X (n : Z) | V (n : Z) | B (n : Z).
Definition key_eqb (a b : key) : bool := match a, b with X n, X m => n =? m | V n, V m => n =? m | B n, B m => n =? m | _, _ => false end.
(* gtsam::Pose3, gtsam::Velocity3, and the bias, which is zero throughout (hpp 57, never written) *)
Inductive value := VPose (r : mat3) (p : vec3) | VVel (v : vec3) | VBias.
(* PriorFactor with the sigmas of its diagonal noise, all the same; CombinedImuFactor *)
Inductive factor (pim : Type) := Prior (k : key) (v : value) (sigma : R) | Imu (x v x' v' b b' : key) (p : pim).
Arguments Prior {pim}. Arguments Imu {pim}.
Definition fkeys {pim} (f : factor pim) : list key := match f with Prior k _ _ => [k] | Imu x v x' v' b b' _ => [x; v; x'; v'; b; b'] end.
Definition values := list (key * value).
Definition has (k : key) (l : values) : bool := existsb (fun e => key_eqb k (fst e)) l.
(* gtsam::Values::insert throws when the key is there *)
Definition insert (k : key) (v : value) (l : values) : res values := if has k l then Throw else Ok (l ++ [(k, v)]).

Section Graph.
Variable pim : Type.
Variable strict : bool.
Variable pim_add : pim -> vec3 -> vec3 -> R -> pim.
Variable pim_predict : pim -> nav -> nav.
Variable pim_cov : pim -> mx.
Variable imu_body : iso.
Variable position velocity : vec3.
(* GT 45-46, 98: an integrator that has just been made, or reset with the same bias *)
Variable pim0 : pim.
(* whether ISAM2 solves the system of all factors and values that it was given, and has their marginals; else it throws *)
Variable solvable : list (factor pim) -> values -> bool.
(* what both programs keep; integrator_TEST, state_TEST; new_factors, new_values; all that optimiser_TEST was given; key; counter *)
Record gstate := mkG { g_main : istate pim; g_pim : pim; g_nav : nav; g_nf : list (factor pim); g_nv : values; g_of : list (factor pim); g_ov : values; g_key : Z; g_count : Z }.
Definition gstate0 : gstate := mkG (istate0 pim pim0) pim0 (mkNav mI v0 v0) [] [] [] [] 1 0.
(* gtsam::ISAM2::update: a known key, or a factor on an unknown one, throws *)
Definition update (g : gstate) (nf : list (factor pim)) (nv : values) : res (list (factor pim) * values) :=
  if existsb (fun e => has (fst e) (g_ov g)) nv then Throw
  else if negb (forallb (fun f => forallb (fun k => has k (g_ov g ++ nv)) (fkeys f)) nf) then Throw
  else if solvable (g_of g ++ nf) (g_ov g ++ nv) then Ok (g_of g ++ nf, g_ov g ++ nv) else Throw.
(* GT 163-176 *)
Definition first_factors (x : nav) : list (factor pim) :=
  [Prior (X 0) (VPose (n_rot x) (n_pos x)) (1 / 1000); Prior (V 0) (VVel (n_vel x)) (1 / 1000); Prior (B 0) VBias (1 / 10000)].
Definition insert3 (k : Z) (x : nav) (l : values) : res values :=
  rbind (insert (X k) (VPose (n_rot x) (n_pos x)) l) (fun l => rbind (insert (V k) (VVel (n_vel x)) l) (fun l => insert (B k) VBias l)).
(* GT 86-121: main is what GT 70-82 left *)
Definition batch (g : gstate) (main : istate pim) (p : pim) (count : Z) : res gstate :=
  let x := pim_predict p (g_nav g) in let k := g_key g in
  rbind (insert3 k x (g_nv g)) (fun nv =>
  rbind (update g (g_nf g ++ [Imu (X (k - 1)) (V (k - 1)) (X k) (V k) (B (k - 1)) (B k) p]) nv) (fun o =>
  Ok (mkG main pim0 x [] [] (fst o) (snd o) (k + 1) count))).
(* GT 66-179.  The counter is a static int: one past its greatest value is undefined.  A throw ends the node, so that it does not matter that
   the odometry (GT 123-151, as in integrate_imu.cpp) is published after the batch *)
Definition g_step (g : gstate) (m : rimu) : res (gstate * option (modom * path)) :=
  rbind (integrate pim strict pim_add pim_predict pim_cov imu_body position velocity (g_main g) m) (fun r =>
  if is_time (g_main g) =? 0 then
    let x := is_initial (fst r) in
    rbind (insert3 0 x (g_nv g)) (fun nv => Ok (mkG (fst r) (g_pim g) x (g_nf g ++ first_factors x) nv (g_of g) (g_ov g) (g_key g) (g_count g), snd r))
  else
    let p := pim_add (g_pim g) (ri_a m) (ri_w m) (IZR (ri_time m - is_time (g_main g)) / 1000000000) in
    let count := g_count g + 1 in
    if count >? 2147483647 then UB
    else if Z.rem count 10 =? 0 then rbind (batch g (fst r) p count) (fun g' => Ok (g', snd r))
    else Ok (mkG (fst r) p (g_nav g) (g_nf g) (g_nv g) (g_of g) (g_ov g) (g_key g) count, snd r)).
Fixpoint g_all (g : gstate) (l : list rimu) : res (gstate * list (modom * path)) :=
  match l with
  | [] => Ok (g, [])
  | m :: l => rbind (g_step g m) (fun r => rbind (g_all (fst r) l) (fun r' => Ok (fst r', match snd r with Some o => o :: snd r' | None => snd r' end)))
  end.
End Graph.
Arguments mkG {pim}. Arguments g_main {pim}. Arguments g_pim {pim}. Arguments g_nav {pim}. Arguments g_nf {pim}. Arguments g_nv {pim}. Arguments g_of {pim}. Arguments g_ov {pim}. Arguments g_key {pim}. Arguments g_count {pim}.
