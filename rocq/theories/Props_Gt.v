(* Property C130: the graph beside the IMU integrator. Proofs in GtProofs.v; cases and refutations in GtExamples.v. *)
From Coq Require Import ZArith Reals List.
From Verif Require Import Base Mx Interp Geo EgModel CvModel MsModel NvModel NvSpec NvProofs NvExamples GtModel GtSpec GtProofs GtExamples.
Import ListNotations.
Open Scope Z_scope.

(* C130 *)
Theorem C130_graph :
  forall (pim : Type) (strict : bool) (add : pim -> vec3 -> vec3 -> R -> pim) (predict : pim -> nav -> nav) (pcov : pim -> mx) 
      (imu_body : iso) (position velocity : vec3) (p0 : pim) (solvable : list (factor pim) -> values -> bool) (m0 : rimu) 
      (l : list rimu),
    (forall (f : list (factor pim)) (v : values), solvable f v = true) ->
    ri_time m0 <> 0 ->
    (forall m : rimu, In m l -> ri_time m <> 0) ->
    Z.of_nat (Datatypes.length l) <= 2147483647 ->
    ~ stalls strict (ri_time m0) l ->
    let x0 := initial_state imu_body position velocity (ri_ori m0) in
    let T := timed (ri_time m0) l in
    let n := (Datatypes.length l / 10)%nat in
    exists (g : gstate pim) (outs : list (modom * path)),
      g_all pim strict add predict pcov imu_body position velocity p0 solvable (gstate0 pim p0) (m0 :: l) = Ok (g, outs) /\
      integrate_all pim strict add predict pcov imu_body position velocity (istate0 pim p0) (m0 :: l) = Ok (g_main g, outs) /\
      ((Datatypes.length l < 10)%nat -> g_of g = [] /\ g_ov g = []) /\
      ((10 <= Datatypes.length l)%nat -> g_of g = graph_factors add p0 x0 T n /\ g_ov g = graph_values add predict p0 x0 T n).
Proof. exact (@graph_built). Qed.
Theorem C130_keys_once :
  forall (pim : Type) (add : pim -> vec3 -> vec3 -> R -> pim) (predict : pim -> nav -> nav),
    (pim -> mx) ->
    vec3 ->
    vec3 ->
    forall (p0 : pim) (x0 : nav) (T : list (vec3 * vec3 * R)) (n : nat),
    NoDup (map fst (graph_values add predict p0 x0 T n)) /\ Datatypes.length (graph_values add predict p0 x0 T n) = (3 * S n)%nat.
Proof. exact (@keys_once). Qed.
Theorem C130_group_time :
  forall (m0 : rimu) (l : list rimu) (n : nat),
    (10 * S n <= Datatypes.length l)%nat ->
    total (group (timed (ri_time m0) l) n) = (IZR (stamp m0 l (10 * S n) - stamp m0 l (10 * n)) / 1000000000)%R.
Proof. exact (@group_time). Qed.
Theorem C130_same_published :
  forall (pim : Type) (strict : bool) (add : pim -> vec3 -> vec3 -> R -> pim) (predict : pim -> nav -> nav) (pcov : pim -> mx) 
      (imu_body : iso) (position velocity : vec3) (p0 : pim) (solvable : list (factor pim) -> values -> bool) (l : list rimu) 
      (g g' : gstate pim) (outs : list (modom * path)),
    g_all pim strict add predict pcov imu_body position velocity p0 solvable g l = Ok (g', outs) ->
    integrate_all pim strict add predict pcov imu_body position velocity (g_main g) l = Ok (g_main g', outs).
Proof. exact (@same_published). Qed.
Theorem C130_zero_first :
  forall (pim : Type) (strict : bool) (add : pim -> vec3 -> vec3 -> R -> pim) (predict : pim -> nav -> nav) (pcov : pim -> mx) 
      (imu_body : iso) (position velocity : vec3) (p0 : pim) (solvable : list (factor pim) -> values -> bool) (m0 m1 : rimu) 
      (l : list rimu),
    ri_time m0 = 0 ->
    g_all pim strict add predict pcov imu_body position velocity p0 solvable (gstate0 pim p0) (m0 :: m1 :: l) = Throw /\
    integrate_all pim strict add predict pcov imu_body position velocity (istate0 pim p0) (m0 :: m1 :: l) =
    integrate_all pim strict add predict pcov imu_body position velocity (istate0 pim p0) (m1 :: l).
Proof. exact (@zero_first). Qed.
Theorem C130_zero_first_refuted :
  exists (m0 : rimu) (l : list rimu) (s : istate R) (outs : list (modom * path)),
      integrate_all R true toy_add toy_predict toy_cov iid v0 (1%R, 0%R, 0%R) (istate0 R 0%R) (m0 :: l) = Ok (s, outs) /\
      Datatypes.length outs = 1%nat /\
      g_all R true toy_add toy_predict toy_cov iid v0 (1%R, 0%R, 0%R) 0%R (fun (_ : list (factor R)) (_ : values) => true) 
        (gstate0 R 0%R) (m0 :: l) = Throw.
Proof. exact (@zero_first_refuted). Qed.

Print Assumptions C130_graph.
Print Assumptions C130_keys_once.
Print Assumptions C130_group_time.
Print Assumptions C130_same_published.
Print Assumptions C130_zero_first.
Print Assumptions C130_zero_first_refuted.
