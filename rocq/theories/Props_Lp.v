(* Properties C104-C107: the pipeline of front end, registration and back end. Proofs in LpProofs.v, LpInv.v, LpLive.v; cases and the refutation in LpExamples.v; fair executions in LpFair.v, LpFairEx.v. *)
From Verif Require Import Base ImuModel FeModel FeSpec FeExamples RegModel RegSpec GmModel GmExamples BeModel BeSpec BeInv BeHealthy BeLive BeFair LpModel LpSpec LpProofs LpInv LpLive LpExamples LpFairSpec LpFair LpFairEx.

(* C104 *)
Theorem C104_no_exception :
  forall (bp : Z -> Z -> Z -> Z -> Z) (al_s al_m : Z -> Z -> Z -> Z) (fc : fcfg) (c : config) (s2m : bool) (p : past) 
      (s : loop) (a : lact) (r : res loop),
    matching fc c -> lreach bp al_s al_m fc c s2m p s -> fine fc p s a -> lstep bp al_s al_m fc c s2m s a = Some r -> exists s' : loop, r = Ok s'.
Proof. exact (@pipeline_safe). Qed.
Theorem C104_no_failed_callback :
  forall (bp : Z -> Z -> Z -> Z -> Z) (al_s al_m : Z -> Z -> Z -> Z) (fc : fcfg) (c : config) (s2m : bool) (p : past) 
      (s : loop) (t : tid) (leak : bool), matching fc c -> lreach bp al_s al_m fc c s2m p s -> pget (y_ctl (l_b s)) t <> CFail leak.
Proof. exact (@pipeline_no_fail). Qed.
Theorem C104_contracts_kept :
  forall (bp : Z -> Z -> Z -> Z -> Z) (al_s al_m : Z -> Z -> Z -> Z) (fc : fcfg) (c : config) (s2m : bool) (p : past) (s : loop),
    matching fc c ->
    lreach bp al_s al_m fc c s2m p s ->
    calm_run fc [] fe_init (h_f p) /\
    fe_run fc fe_init (h_f p) = Ok (l_f s) /\
    (exists tau : Z -> Z,
       environment c tau /\
       (forall (n : nat) (t : Z), nth_error (announced (f_out (l_f s))) n = Some t -> tau (Z.of_nat n) = t) /\ hreach bp c tau (h_b p) (l_b s)) /\
    rexec Z Z al_s al_m s2m (h_r p) (rinit Z Z) = Some (Ok (l_r s)).
Proof. exact (@contracts). Qed.
Theorem C104_odometry_states :
  forall (bp : Z -> Z -> Z -> Z -> Z) (al_s al_m : Z -> Z -> Z -> Z) (fc : fcfg) (c : config) (s2m : bool) (p : past) 
      (s : loop) (n : nat) (k t : Z),
    matching fc c ->
    lreach bp al_s al_m fc c s2m p s ->
    nth_error (odoms (y_ev (l_b s))) n = Some (k, t) -> k = Z.of_nat n /\ nth_error (announced (f_out (l_f s))) n = Some t.
Proof. exact (@odometry_states). Qed.

(* C105 *)
Theorem C105_odometry_behind :
  forall (bp : Z -> Z -> Z -> Z -> Z) (al_s al_m : Z -> Z -> Z -> Z) (fc : fcfg) (c : config) (s2m : bool) (p : past) (s : loop),
    matching fc c ->
    c_reg c = true ->
    lreach bp al_s al_m fc c s2m p s -> (Datatypes.length (odoms (y_ev (l_b s))) <= Nat.max 1 (Datatypes.length (out_clouds (f_out (l_f s)))))%nat.
Proof. exact (@odometry_behind). Qed.
Theorem C105_never_overtakes :
  forall (bp : Z -> Z -> Z -> Z -> Z) (al_s al_m : Z -> Z -> Z -> Z) (fc : fcfg) (c : config) (s2m : bool) (p : past) (s : loop) (u sw new : Z),
    matching fc c -> c_reg c = true -> lreach bp al_s al_m fc c s2m p s -> f_pc (l_f s) = PBias u sw new -> f_bias (l_f s) <= f_pst (l_f s).
Proof. exact (@never_overtakes). Qed.
Theorem C105_rest_done :
  forall (bp : Z -> Z -> Z -> Z -> Z) (al_s al_m : Z -> Z -> Z -> Z) (fc : fcfg) (c : config) (s2m : bool) (p : past) (s : loop),
    matching fc c ->
    c_reg c = true ->
    enough_workers c ->
    lreach bp al_s al_m fc c s2m p s ->
    features_in c p s ->
    at_rest bp fc c s2m s ->
    out_inits (f_out (l_f s)) <> [] ->
    Datatypes.length (odoms (y_ev (l_b s))) = Nat.max 1 (Datatypes.length (out_clouds (f_out (l_f s)))) /\
    (forall u sw new : Z, f_pc (l_f s) = PBias u sw new -> f_bias (l_f s) = f_pst (l_f s)).
Proof. exact (@rest_done). Qed.
Theorem C105_overtaken_stops :
  forall (bp : Z -> Z -> Z -> Z -> Z) (al_s al_m : Z -> Z -> Z -> Z) (fc : fcfg) (c : config) (s2m : bool) (p : past) 
      (s : loop) (u sw new : Z) (p' : past) (s' : loop),
    matching fc c ->
    lreach bp al_s al_m fc c s2m p s ->
    f_pc (l_f s) = PBias u sw new ->
    f_pst (l_f s) < f_bias (l_f s) ->
    later bp al_s al_m fc c s2m p s p' s' -> f_pc (l_f s') = PBias u sw new /\ out_clouds (f_out (l_f s')) = out_clouds (f_out (l_f s)).
Proof. exact (@overtaken). Qed.
Theorem C105_without_registration_refuted :
  exists (p : past) (s : loop),
      lreach bp0 al0 al1 cfg_lidar cfg_open true p s /\
      matching cfg_lidar cfg_open /\
      enough_workers cfg_open /\
      f_pc (l_f s) = PBias 300 50000 200000 /\
      Datatypes.length (out_clouds (f_out (l_f s))) = 1%nat /\
      (forall (p' : past) (s' : loop),
       later bp0 al0 al1 cfg_lidar cfg_open true p s p' s' -> out_clouds (f_out (l_f s')) = out_clouds (f_out (l_f s))).
Proof. exact (@open_loop_stops). Qed.

(* C106 *)
Theorem C106_same_frame :
  forall (bp : Z -> Z -> Z -> Z -> Z) (al_s al_m : Z -> Z -> Z -> Z) (fc : fcfg) (c : config) (s2m : bool) (p : past) 
      (s : loop) (n : nat) (t x : Z),
    matching fc c ->
    lreach bp al_s al_m fc c s2m p s ->
    s2m = true ->
    nth_error (r_pub Z Z (l_r s)) n = Some (t, x) ->
    exists q g k : Z,
      nth_error (cloud_stamps (l_f s)) n = Some q /\
      nth_error (cloud_stamps (l_f s)) (S n) = Some t /\
      x = al_m t q (al_s t q g) /\ In t (trans (y_ev (l_b s))) /\ nth_error (odoms (y_ev (l_b s))) n = Some (k, q).
Proof. exact (@same_frame). Qed.

(* C107 *)
Theorem C107_odometry_returns :
  forall (bp : Z -> Z -> Z -> Z -> Z) (al_s al_m : Z -> Z -> Z -> Z) (fc : fcfg) (c : config) (s2m : bool) (p : nat -> past) 
      (x : nat -> loop) (acts : nat -> option lact) (time : nat -> Z),
    matching fc c ->
    lexecution bp al_s al_m fc c s2m p x acts ->
    lfair bp al_s al_m fc c s2m p x acts ->
    timeline x time ->
    c_reg c = true ->
    enough_workers c ->
    features_follow c p x ->
    forall (n i : nat) (t : Z),
    nth_error (cloud_stamps (l_f (x n))) i = Some t -> Z.of_nat i < int_max -> exists m : nat, (n <= m)%nat /\ In (IOdom t) (h_f (p m)).
Proof. exact (@fair_odometry_returns). Qed.
Theorem C107_transform_published :
  forall (bp : Z -> Z -> Z -> Z -> Z) (al_s al_m : Z -> Z -> Z -> Z) (fc : fcfg) (c : config) (s2m : bool) (p : nat -> past) 
      (x : nat -> loop) (acts : nat -> option lact) (time : nat -> Z),
    matching fc c ->
    lexecution bp al_s al_m fc c s2m p x acts ->
    lfair bp al_s al_m fc c s2m p x acts ->
    timeline x time ->
    c_reg c = true ->
    enough_workers c ->
    features_follow c p x ->
    forall (n i : nat) (t : Z),
    nth_error (cloud_stamps (l_f (x n))) i = Some t -> Z.of_nat i < int_max -> exists m : nat, (n <= m)%nat /\ In t (trans (y_ev (l_b (x m)))).
Proof. exact (@fair_transform_published). Qed.
Theorem C107_cloud_registered :
  forall (bp : Z -> Z -> Z -> Z -> Z) (al_s al_m : Z -> Z -> Z -> Z) (fc : fcfg) (c : config) (s2m : bool) (p : nat -> past) 
      (x : nat -> loop) (acts : nat -> option lact) (time : nat -> Z),
    matching fc c ->
    lexecution bp al_s al_m fc c s2m p x acts ->
    lfair bp al_s al_m fc c s2m p x acts ->
    timeline x time ->
    c_reg c = true ->
    enough_workers c ->
    features_follow c p x ->
    forall (n i : nat) (t : Z),
    nth_error (cloud_stamps (l_f (x n))) (S i) = Some t ->
    Z.of_nat (S i) < int_max -> exists m : nat, (n <= m)%nat /\ nth_error (map fst (r_pub Z Z (l_r (x m)))) i = Some t.
Proof. exact (@fair_cloud_registered). Qed.
Theorem C107_awaited_odometry_arrives :
  forall (bp : Z -> Z -> Z -> Z -> Z) (al_s al_m : Z -> Z -> Z -> Z) (fc : fcfg) (c : config) (s2m : bool) (p : nat -> past) 
      (x : nat -> loop) (acts : nat -> option lact) (time : nat -> Z),
    matching fc c ->
    lexecution bp al_s al_m fc c s2m p x acts ->
    lfair bp al_s al_m fc c s2m p x acts ->
    timeline x time ->
    c_reg c = true ->
    enough_workers c ->
    features_follow c p x ->
    forall (n : nat) (u sw new : Z),
    f_pc (l_f (x n)) = PBias u sw new ->
    Z.of_nat (Datatypes.length (cloud_stamps (l_f (x n)))) <= int_max ->
    exists m : nat,
      (n <= m)%nat /\ (forall m' : nat, (m <= m')%nat -> f_pc (l_f (x m')) = PBias u sw new -> f_bias (l_f (x m')) = f_pst (l_f (x m'))).
Proof. exact (@fair_awaited_arrives). Qed.
Theorem C107_callback_returns :
  forall (bp : Z -> Z -> Z -> Z -> Z) (al_s al_m : Z -> Z -> Z -> Z) (fc : fcfg) (c : config) (s2m : bool) (p : nat -> past) 
      (x : nat -> loop) (acts : nat -> option lact) (time : nat -> Z),
    matching fc c ->
    lexecution bp al_s al_m fc c s2m p x acts ->
    lfair bp al_s al_m fc c s2m p x acts ->
    timeline x time ->
    c_reg c = true ->
    enough_workers c ->
    features_follow c p x ->
    polled acts ->
    imu_follows p ->
    images_follow fc p ->
    forall n : nat,
    Z.of_nat (Datatypes.length (out_clouds (f_out (l_f (x n))))) <= int_max ->
    exists m : nat,
      (n <= m)%nat /\
      f_pc (l_f (x m)) = PIdle /\
      Datatypes.length (out_clouds (f_out (l_f (x m)))) =
      (Datatypes.length (out_clouds (f_out (l_f (x n)))) + match f_pc (l_f (x n)) with
                                                           | PIdle | PBaro _ _ _ => 0
                                                           | _ => 1
                                                           end)%nat.
Proof. exact (@fair_callback_returns). Qed.

Print Assumptions C104_no_exception.
Print Assumptions C104_no_failed_callback.
Print Assumptions C104_contracts_kept.
Print Assumptions C104_odometry_states.
Print Assumptions C105_odometry_behind.
Print Assumptions C105_never_overtakes.
Print Assumptions C105_rest_done.
Print Assumptions C105_overtaken_stops.
Print Assumptions C105_without_registration_refuted.
Print Assumptions C106_same_frame.
Print Assumptions C107_odometry_returns.
Print Assumptions C107_transform_published.
Print Assumptions C107_cloud_registered.
Print Assumptions C107_awaited_odometry_arrives.
Print Assumptions C107_callback_returns.
