(* Properties C118, C119: the threads the node needs. Proofs in PlProofs.v, PlStuck.v, PlFair.v; cases in PlExamples.v, PlFairEx.v. *)
From Coq Require Import List Arith ZArith.
Import ListNotations.
From Verif Require Import Base ImuModel ImuSpec FeModel FeSpec FeBaro FeExamples RegModel RegSpec GmModel GmReady GmExamples BeModel BeSpec BeInv BeHealthy BeLive LpModel LpSpec LpProofs LpInv LpExamples LpFairSpec LpFair LpFairEx PlModel PlSpec PlProofs PlStuck PlFairSpec PlFair PlExamples PlFairEx.
Local Open Scope Z_scope.

(* C118 *)
Theorem C118_few_threads_no_new_states :
  forall (bp : Z -> Z -> Z -> Z -> Z) (al_s al_m : Z -> Z -> Z -> Z) (fc : fcfg) (c : config) (s2m : bool) (p : past) (s : loop),
    preach bp al_s al_m fc c s2m p s -> lreach bp al_s al_m fc c s2m p s.
Proof. exact (@pool_reach). Qed.
Theorem C118_enough_threads :
  forall (bp : Z -> Z -> Z -> Z -> Z) (al_s al_m : Z -> Z -> Z -> Z) (fc : fcfg) (c : config) (s2m : bool) (s : loop) (a : lact),
    (9 <= c_pool c)%nat -> pstep bp al_s al_m fc c s2m s a = lstep bp al_s al_m fc c s2m s a.
Proof. exact (@pool_enough). Qed.
Theorem C118_imu_or_baro_waits :
  forall (bp : Z -> Z -> Z -> Z -> Z) (al_s al_m : Z -> Z -> Z -> Z) (fc : fcfg) (c : config) (s2m : bool) (p : past) (s : loop),
    matching fc c -> lreach bp al_s al_m fc c s2m p s -> y_mutex (l_b s) = None -> asleep bp c s TImu -> asleep bp c s TBaro -> False.
Proof. exact (@imu_or_baro). Qed.
Theorem C118_thread_free_at_rest :
  forall (bp : Z -> Z -> Z -> Z -> Z) (al_s al_m : Z -> Z -> Z -> Z) (fc : fcfg) (c : config) (s2m : bool) (p : past) (s : loop),
    matching fc c ->
    preach bp al_s al_m fc c s2m p s -> (sleepers c < c_pool c)%nat -> pool_rest bp al_s al_m fc c s2m s -> (pool_busy s < c_pool c)%nat.
Proof. exact (@rest_frees). Qed.
Theorem C118_rest_is_rest :
  forall (bp : Z -> Z -> Z -> Z -> Z) (al_s al_m : Z -> Z -> Z -> Z) (fc : fcfg) (c : config) (s2m : bool) (p : past) (s : loop),
    matching fc c -> preach bp al_s al_m fc c s2m p s -> (sleepers c < c_pool c)%nat -> pool_rest bp al_s al_m fc c s2m s -> at_rest bp fc c s2m s.
Proof. exact (@rest_is_rest). Qed.
Theorem C118_delivers :
  forall (bp : Z -> Z -> Z -> Z -> Z) (al_s al_m : Z -> Z -> Z -> Z) (fc : fcfg) (c : config) (s2m : bool) (p : past) (s : loop),
    matching fc c ->
    c_reg c = true ->
    (sleepers c < c_pool c)%nat ->
    preach bp al_s al_m fc c s2m p s ->
    features_in c p s ->
    pool_rest bp al_s al_m fc c s2m s ->
    out_inits (f_out (l_f s)) <> [] ->
    Datatypes.length (odoms (y_ev (l_b s))) = Nat.max 1 (Datatypes.length (out_clouds (f_out (l_f s)))) /\
    (forall u sw new : Z, f_pc (l_f s) = PBias u sw new -> f_bias (l_f s) = f_pst (l_f s)).
Proof. exact (@pool_delivers). Qed.
Theorem C118_bound_exact_refuted :
  forall st ba : bool,
    exists (p : past) (s : loop),
      let fc := fe_of st ba in
      let c := cfg_of st ba in
      matching fc c /\
      c_reg c = true /\
      c_stereo c = st /\
      c_baro c = ba /\
      c_pool c = sleepers c /\
      preach bp0 al0 al1 fc c true p s /\
      features_in c p s /\
      (exists (g : Z) (s' : loop), lstep bp0 al0 al1 fc c true s (LScan g) = Some (Ok s')) /\
      (Datatypes.length (odoms (y_ev (l_b s))) < Datatypes.length (out_clouds (f_out (l_f s))))%nat /\
      (forall (p' : past) (s' : loop),
       plater bp0 al0 al1 fc c true p s p' s' ->
       l_f s' = l_f s /\ r_pub Z Z (l_r s') = r_pub Z Z (l_r s) /\ (forall e : event, In e (y_ev (l_b s')) -> In e (y_ev (l_b s)))).
Proof. exact (@threads_exact). Qed.
Theorem C118_starved_forever :
  forall (bp : Z -> Z -> Z -> Z -> Z) (al_s al_m : Z -> Z -> Z -> Z) (fc : fcfg) (c : config) (s2m : bool) (p : past) (s : loop),
    matching fc c ->
    lreach bp al_s al_m fc c s2m p s ->
    starved bp fc c s ->
    forall (p' : past) (s' : loop),
    plater bp al_s al_m fc c s2m p s p' s' ->
    l_f s' = l_f s /\
    r_pub Z Z (l_r s') = r_pub Z Z (l_r s) /\
    l_odo s' = l_odo s /\
    l_scn s' = l_scn s /\
    (forall e : event, In e (y_ev (l_b s')) -> In e (y_ev (l_b s))) /\ (forall k : Z, In k (opts (y_log (l_b s'))) -> In k (opts (y_log (l_b s)))).
Proof. exact (@starved_forever). Qed.
Theorem C118_map_thread_lost :
  forall (bp : Z -> Z -> Z -> Z -> Z) (al_s al_m : Z -> Z -> Z -> Z) (fc : fcfg) (c : config) (p : past) (s : loop) (p' : past) (s' : loop),
    preach bp al_s al_m fc c false p s -> s2m_held (l_r s) = true -> plater bp al_s al_m fc c false p s p' s' -> s2m_held (l_r s') = true.
Proof. exact (@thread_lost). Qed.
Theorem C118_rest_case :
  exists (p : past) (s : loop),
      matching cfg_lidar cfg_rest /\
      (sleepers cfg_rest < c_pool cfg_rest)%nat /\
      preach bp0 al0 al1 cfg_lidar cfg_rest true p s /\
      pool_rest bp0 al0 al1 cfg_lidar cfg_rest true s /\
      features_in cfg_rest p s /\
      out_inits (f_out (l_f s)) = [100000] /\
      Datatypes.length (odoms (y_ev (l_b s))) = 2%nat /\ Datatypes.length (out_clouds (f_out (l_f s))) = 2%nat.
Proof. exact (@rest_case). Qed.
Theorem C118_starved_case :
  exists (p : past) (s : loop),
      lreach bp0 al0 al1 (fe_of true true) (cfg_of true true) true p s /\
      starved bp0 (fe_of true true) (cfg_of true true) s /\ asleep bp0 (cfg_of true true) s TImu /\ y_mutex (l_b s) = None.
Proof. exact (@starved_case). Qed.
Theorem C118_lost_case :
  exists (p : past) (s : loop), preach bp0 al0 al1 cfg_lidar cfg_rest false p s /\ s2m_held (l_r s) = true.
Proof. exact (@lost_case). Qed.

(* C119 *)
Theorem C119_thread_free_again :
  forall (bp : Z -> Z -> Z -> Z -> Z) (al_s al_m : Z -> Z -> Z -> Z) (fc : fcfg) (c : config) (s2m : bool) (p : nat -> past) 
      (x : nat -> loop) (acts : nat -> option lact) (time : nat -> Z),
    matching fc c ->
    pexecution bp al_s al_m fc c s2m p x acts ->
    pfair bp al_s al_m fc c s2m p x acts ->
    timeline x time -> (sleepers c < c_pool c)%nat -> forall n : nat, exists m : nat, (n <= m)%nat /\ (pool_busy (x m) < c_pool c)%nat.
Proof. exact (@pool_frees). Qed.
Theorem C119_pipeline_fair :
  forall (bp : Z -> Z -> Z -> Z -> Z) (al_s al_m : Z -> Z -> Z -> Z) (fc : fcfg) (c : config) (s2m : bool) (p : nat -> past) 
      (x : nat -> loop) (acts : nat -> option lact) (time : nat -> Z),
    matching fc c ->
    pexecution bp al_s al_m fc c s2m p x acts ->
    pfair bp al_s al_m fc c s2m p x acts -> timeline x time -> (sleepers c < c_pool c)%nat -> lfair bp al_s al_m fc c s2m p x acts.
Proof. exact (@pool_fair). Qed.
Theorem C119_odometry_returns :
  forall (bp : Z -> Z -> Z -> Z -> Z) (al_s al_m : Z -> Z -> Z -> Z) (fc : fcfg) (c : config) (s2m : bool) (p : nat -> past) 
      (x : nat -> loop) (acts : nat -> option lact) (time : nat -> Z),
    matching fc c ->
    pexecution bp al_s al_m fc c s2m p x acts ->
    pfair bp al_s al_m fc c s2m p x acts ->
    timeline x time ->
    (sleepers c < c_pool c)%nat ->
    c_reg c = true ->
    features_follow c p x ->
    forall (n i : nat) (t : Z),
    nth_error (cloud_stamps (l_f (x n))) i = Some t -> Z.of_nat i < int_max -> exists m : nat, (n <= m)%nat /\ In (IOdom t) (h_f (p m)).
Proof. exact (@pool_odometry_returns). Qed.
Theorem C119_transform_published :
  forall (bp : Z -> Z -> Z -> Z -> Z) (al_s al_m : Z -> Z -> Z -> Z) (fc : fcfg) (c : config) (s2m : bool) (p : nat -> past) 
      (x : nat -> loop) (acts : nat -> option lact) (time : nat -> Z),
    matching fc c ->
    pexecution bp al_s al_m fc c s2m p x acts ->
    pfair bp al_s al_m fc c s2m p x acts ->
    timeline x time ->
    (sleepers c < c_pool c)%nat ->
    c_reg c = true ->
    features_follow c p x ->
    forall (n i : nat) (t : Z),
    nth_error (cloud_stamps (l_f (x n))) i = Some t -> Z.of_nat i < int_max -> exists m : nat, (n <= m)%nat /\ In t (trans (y_ev (l_b (x m)))).
Proof. exact (@pool_transform_published). Qed.
Theorem C119_cloud_registered :
  forall (bp : Z -> Z -> Z -> Z -> Z) (al_s al_m : Z -> Z -> Z -> Z) (fc : fcfg) (c : config) (s2m : bool) (p : nat -> past) 
      (x : nat -> loop) (acts : nat -> option lact) (time : nat -> Z),
    matching fc c ->
    pexecution bp al_s al_m fc c s2m p x acts ->
    pfair bp al_s al_m fc c s2m p x acts ->
    timeline x time ->
    (sleepers c < c_pool c)%nat ->
    c_reg c = true ->
    features_follow c p x ->
    forall (n i : nat) (t : Z),
    nth_error (cloud_stamps (l_f (x n))) (S i) = Some t ->
    Z.of_nat (S i) < int_max -> exists m : nat, (n <= m)%nat /\ nth_error (map fst (r_pub Z Z (l_r (x m)))) i = Some t.
Proof. exact (@pool_cloud_registered). Qed.
Theorem C119_callback_returns :
  forall (bp : Z -> Z -> Z -> Z -> Z) (al_s al_m : Z -> Z -> Z -> Z) (fc : fcfg) (c : config) (s2m : bool) (p : nat -> past) 
      (x : nat -> loop) (acts : nat -> option lact) (time : nat -> Z),
    matching fc c ->
    pexecution bp al_s al_m fc c s2m p x acts ->
    pfair bp al_s al_m fc c s2m p x acts ->
    timeline x time ->
    (sleepers c < c_pool c)%nat ->
    c_reg c = true ->
    features_follow c p x ->
    polled acts ->
    imu_follows p ->
    images_follow fc p ->
    forall n : nat,
    Z.of_nat (Datatypes.length (out_clouds (f_out (l_f (x n))))) <= int_max ->
    exists m : nat,
      (n <= m)%nat /\
      f_pc (l_f (x m)) = PIdle /\
      Datatypes.length (out_clouds (f_out (l_f (x m)))) =
      (Datatypes.length (out_clouds (f_out (l_f (x n)))) + match f_pc (l_f (x n)) with
                                                           | PIdle | PBaro _ _ _ => 0
                                                           | _ => 1
                                                           end)%nat.
Proof. exact (@pool_callback_returns). Qed.
Theorem C119_case :
  matching cfg_lidar cfg_reg /\
    c_reg cfg_reg = true /\
    c_pool cfg_reg = 4%nat /\
    (sleepers cfg_reg < c_pool cfg_reg)%nat /\
    pexecution bp0 al0 al1 cfg_lidar cfg_reg true xp xs xa /\
    pfair bp0 al0 al1 cfg_lidar cfg_reg true xp xs xa /\
    timeline xs time_ /\
    features_follow cfg_reg xp xs /\
    polled xa /\
    imu_follows xp /\
    images_follow cfg_lidar xp /\ cloud_stamps (l_f (xs 0)) = [100000; 200000] /\ r_pub Z Z (l_r (xs 0)) = [] /\ pool_busy (xs 1) = 3%nat.
Proof. exact (@fair_pool). Qed.

Print Assumptions C118_few_threads_no_new_states.
Print Assumptions C118_enough_threads.
Print Assumptions C118_imu_or_baro_waits.
Print Assumptions C118_thread_free_at_rest.
Print Assumptions C118_rest_is_rest.
Print Assumptions C118_delivers.
Print Assumptions C118_bound_exact_refuted.
Print Assumptions C118_starved_forever.
Print Assumptions C118_map_thread_lost.
Print Assumptions C118_rest_case.
Print Assumptions C118_starved_case.
Print Assumptions C118_lost_case.
Print Assumptions C119_thread_free_again.
Print Assumptions C119_pipeline_fair.
Print Assumptions C119_odometry_returns.
Print Assumptions C119_transform_published.
Print Assumptions C119_cloud_registered.
Print Assumptions C119_callback_returns.
Print Assumptions C119_case.
