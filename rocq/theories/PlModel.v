(* The pipeline on the threads of one node.

   Source: serpent/src/nodes/node.cpp 28-85: one process holds every module, and one ros::AsyncSpinner with `threads`
   threads (default 4, node.cpp 75 and serpent.launch 17; launch files of the missions set 8) runs all callbacks. A callback that sleeps in
   protected_sleep (serpent/src/utils/utilities.cpp 74-89) keeps its thread.

   Callbacks with a thread of their own over several moves: Frontend::pointcloud_callback, the five callbacks of the
   back end, Registration::s2s_callback and s2m_callback. Every other callback (IMU, images, barometer, odometry into
   the front end, stereo features) is one move of LpModel: it needs a free thread at that move and leaves it free.
   The filters, the normal estimator and the map on the way of a cloud need threads of their own for a while; here
   only the callback at the end of their way does (fewer needs than in reality). A message that a running callback
   publishes needs no thread to be queued. c_pool is the number of threads. *)
From Verif Require Import Base ImuModel FeModel FeSpec RegModel GmModel BeModel BeInv BeHealthy LpModel.

Definition held (b : bool) : nat := if b then 1 else 0.
Definition fe_held (f : fe) : bool := match f_pc f with PIdle => false | _ => true end.
Definition s2s_held (r : rst Z Z) : bool := match r_s Z Z r with SIdle _ _ => false | _ => true end.
Definition s2m_held (r : rst Z Z) : bool := match r_m Z Z r with MIdle _ _ => false | _ => true end.
(* threads taken *)
Definition pool_busy (s : loop) : nat := held (fe_held (l_f s)) + workers (l_b s) + held (s2s_held (l_r s)) + held (s2m_held (l_r s)).

(* moves that begin a callback *)
Definition starts (a : lact) : bool :=
  match a with
  | LSensor _ | LOdom | LScan _ | LMap | LBack (ADispatch _) => true
  | LSend (MStereo _ _ _ _ _) => true                  (* from StereoFactorFinder::stereo_callback *)
  | _ => false
  end.

Section Sem.
Variable bp : Z -> Z -> Z -> Z -> Z.
Variable al_s al_m : Z -> Z -> Z -> Z.
Variable fc : fcfg.
Variable c : config.
Variable s2m : bool.

Definition pstep (s : loop) (a : lact) : option (res loop) :=
  if starts a && negb (Nat.ltb (pool_busy s) (c_pool c)) then None else lstep bp al_s al_m fc c s2m s a.
End Sem.
