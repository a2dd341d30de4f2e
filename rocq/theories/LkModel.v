(* Threads, mutexes and shared data of the serpent nodes.

   serpent/src/nodes/node.cpp 74-83 (and frontend_node.cpp, backend_node.cpp, stereo_pipeline_node.cpp) run the
   callbacks of all modules on an AsyncSpinner with several threads. Here every callback is reduced to the order in
   which it takes and gives back mutexes, reads and writes the members shared between callbacks, sleeps and returns.
   Which branch is taken and how often a loop runs is left open (any choice is possible), so the executions include
   those of the code. The constructors run before the spinner starts (node.cpp 21-80) and are left out; so are
   members that only constructors write, publishers (roscpp's are safe to use from several threads) and the static
   flags of the logging macros. An exception that leaves a callback ends the process, so exceptional exits need no
   transitions: what happened before them is an initial part of an execution here. *)
From Coq Require Import String List Arith Lia Bool.
From Verif Require Import Base.
Import ListNotations.
Local Open Scope nat_scope.
Open Scope string_scope.

Inductive stmt :=
| Skip
| Rd (f : string) (line : nat)          (* reads member f *)
| Wr (f : string) (line : nat)          (* writes member f, or changes the object it holds *)
| Lock (m : string)
| Unlock (m : string)
| Sleep                                 (* ros::Duration::sleep *)
| Quit                                  (* if (!ros::ok()) return *)
| Enter (w : string)                    (* no code: marks the beginning of a stretch named w *)
| Leave (w : string)                    (* and its end *)
| Seq (a b : stmt)
| Alt (a b : stmt)                      (* one or the other *)
| Loop (a : stmt).                      (* any number of times *)

Declare Scope lk_scope.
Delimit Scope lk_scope with lk.
Notation "a ;; b" := (Seq a b) (at level 61, right associativity) : lk_scope.
Local Open Scope lk_scope.

(* std::lock_guard around the rest of a block. No callback returns on shutdown from inside such a block, so the
   release at the end of the block is the only one needed *)
Definition Guard (m : string) (a : stmt) : stmt := Lock m ;; a ;; Unlock m.
Definition May (a : stmt) : stmt := Alt a Skip.

(* protected_sleep, serpent/src/utils/utilities.cpp 74-89, with the test of its result by the caller; cond: what the
   condition reads and writes *)
Definition protected_sleep (m : string) (already_locked leave_locked : bool) (cond : stmt) : stmt :=
  (if already_locked then Skip else Lock m) ;;
  cond ;; Loop (Unlock m ;; Sleep ;; Lock m ;; cond) ;;
  (if leave_locked then Skip else Unlock m) ;;
  Quit.

Record callback := mkCb { c_name : string; c_again : bool; c_body : stmt }.
(* c_again: a second call may start while one runs. roscpp does not overlap the calls of one subscription; services
   have no such limit *)
Definition sub (n : string) (b : stmt) : callback := mkCb n false b.
Definition service (n : string) (b : stmt) : callback := mkCb n true b.
(* a callback behind a message_filters::TimeSynchronizer: every subscription of the synchroniser takes the mutex of
   the synchroniser, and the message that completes a set calls the callback with the mutex still taken *)
Definition synced (n : string) (topics : list string) (b : stmt) : list callback :=
  map (fun t => sub (n ++ " " ++ t) (Guard (n ++ " sync") (May b))) topics.

Record thread := mkT {
  t_cb : nat;               (* position of its callback in the list of callbacks *)
  t_k : list stmt;          (* what is left to do *)
  t_in : list string }.     (* the marked stretches it is in *)
Record world := mkW { w_own : string -> option nat; w_thr : nat -> option thread; w_up : bool }.
(* w_up: ros::ok() *)

Definition set_own (f : string -> option nat) (m : string) (o : option nat) : string -> option nat :=
  fun x => if String.eqb x m then o else f x.
Definition set_thr (f : nat -> option thread) (t : nat) (o : option thread) : nat -> option thread :=
  fun x => if Nat.eqb x t then o else f x.

(* steps that change only what is left to do *)
Inductive moves (up : bool) : list stmt -> list stmt -> Prop :=
| m_skip k : moves up (Skip :: k) k
| m_rd f l k : moves up (Rd f l :: k) k
| m_wr f l k : moves up (Wr f l :: k) k
| m_sleep k : moves up (Sleep :: k) k
| m_go k : up = true -> moves up (Quit :: k) k
| m_quit k : up = false -> moves up (Quit :: k) []
| m_seq a b k : moves up (Seq a b :: k) (a :: b :: k)
| m_left a b k : moves up (Alt a b :: k) (a :: k)
| m_right a b k : moves up (Alt a b :: k) (b :: k)
| m_done a k : moves up (Loop a :: k) k
| m_again a k : moves up (Loop a :: k) (a :: Loop a :: k).

(* one step of thread t of program P *)
Inductive event := Began (c : nat) | Took (m : string) | Other.
Inductive tstep (P : list callback) (w : world) (t : nat) : event -> world -> Prop :=
| s_begin c cb : w_thr w t = None -> nth_error P c = Some cb ->
    (c_again cb = false -> forall t' th, w_thr w t' = Some th -> t_cb th <> c) ->
    tstep P w t (Began c) (mkW (w_own w) (set_thr (w_thr w) t (Some (mkT c [c_body cb] []))) (w_up w))
| s_end th : w_thr w t = Some th -> t_k th = [] ->
    tstep P w t Other (mkW (w_own w) (set_thr (w_thr w) t None) (w_up w))
| s_move th k : w_thr w t = Some th -> moves (w_up w) (t_k th) k ->
    tstep P w t Other (mkW (w_own w) (set_thr (w_thr w) t (Some (mkT (t_cb th) k (t_in th)))) (w_up w))
| s_lock th m k : w_thr w t = Some th -> t_k th = Lock m :: k -> w_own w m = None ->
    tstep P w t (Took m) (mkW (set_own (w_own w) m (Some t)) (set_thr (w_thr w) t (Some (mkT (t_cb th) k (t_in th)))) (w_up w))
| s_unlock th m k : w_thr w t = Some th -> t_k th = Unlock m :: k -> w_own w m = Some t ->
    tstep P w t Other (mkW (set_own (w_own w) m None) (set_thr (w_thr w) t (Some (mkT (t_cb th) k (t_in th)))) (w_up w))
| s_enter th x k : w_thr w t = Some th -> t_k th = Enter x :: k ->
    tstep P w t Other (mkW (w_own w) (set_thr (w_thr w) t (Some (mkT (t_cb th) k (x :: t_in th)))) (w_up w))
| s_leave th x k : w_thr w t = Some th -> t_k th = Leave x :: k ->
    tstep P w t Other (mkW (w_own w) (set_thr (w_thr w) t (Some (mkT (t_cb th) k (remove string_dec x (t_in th))))) (w_up w)).
(* Unlock of a mutex the thread does not own is undefined behaviour in C++: no step. LkSpec asks that it does not occur *)

Definition world0 : world := mkW (fun _ => None) (fun _ => None) true.

(* allowed: an assumption on the steps of the executions considered *)
Inductive reach (P : list callback) (allowed : world -> nat -> event -> Prop) : world -> Prop :=
| r_start : reach P allowed world0
| r_step w t e w' : reach P allowed w -> allowed w t e -> tstep P w t e w' -> reach P allowed w'
| r_down w : reach P allowed w -> reach P allowed (mkW (w_own w) (w_thr w) false).
Definition anything (w : world) (t : nat) (e : event) : Prop := True.

(* ---- serpent/src/front_end/frontend.cpp; members and mutexes of serpent/include/serpent/front_end/frontend.hpp 165-239 ---- *)
Definition imu_m := "fe.imu_data_mutex".
Definition pre_m := "fe.preintegration_mutex".
Definition ste_m := "fe.stereo_data_mutex".
Definition bar_m := "fe.barometer_data_mutex".
(* the stretch of the point cloud callback between the end of its second wait and the publication of the deskewed
   cloud, during which it reads members of preintegration_mutex without it: frontend.cpp 453-454 *)
Definition deskewing := "deskewing".

(* 162-186 *)
Definition barometer_try_publish : stmt :=
  Rd "fe.barometer_timestamp_buffer" 163 ;;
  May (Rd "fe.barometer_buffer" 165 ;; Rd "fe.barometer_timestamp_buffer" 165 ;;
       Alt (Rd "fe.barometer_buffer" 169 ;; Rd "fe.barometer_timestamp_buffer" 170 ;; Wr "fe.barometer_timestamp_buffer" 172)
           (Rd "fe.barometer_buffer" 173 ;; Rd "fe.barometer_timestamp_buffer" 174 ;;
            May (Loop (Rd "fe.barometer_buffer" 176 ;; Rd "fe.barometer_timestamp_buffer" 176 ;; Wr "fe.barometer_buffer" 177) ;;
                 Rd "fe.barometer_buffer" 182 ;; Rd "fe.barometer_timestamp_buffer" 182 ;; Wr "fe.barometer_timestamp_buffer" 183))).
(* 150-160 *)
Definition fe_barometer : stmt :=
  Guard bar_m (Alt (Wr "fe.barometer_buffer" 155) (Wr "fe.barometer_buffer" 157) ;; barometer_try_publish).
(* 204-255; the integrator holds the shared preintegration parameters and reads them *)
Definition fe_imu : stmt :=
  Guard pre_m (
    Lock imu_m ;; Rd "fe.last_preint_imu_timestamp" 215 ;; Wr "fe.imu_buffer" 216 ;; Unlock imu_m ;;
    Wr "fe.last_preint_imu_timestamp" 218 ;;
    Rd "fe.preintegrated_imu" 220 ;;
    May (Rd "fe.preintegration_params" 222 ;; Wr "fe.preintegrated_imu" 222 ;;
         Rd "fe.preintegrated_imu" 225 ;; Rd "fe.preintegration_params" 225 ;; Rd "fe.world_state" 225 ;; Rd "fe.imu_biases" 225 ;;
         Rd "fe.imu_biases" 239)).
(* 257-266 *)
Definition interpolated_imu : stmt := Guard imu_m (Rd "fe.imu_buffer" 259 ;; Loop (Rd "fe.imu_buffer" 264) ;; Rd "fe.imu_buffer" 265).
(* 268-327; the exception handler 298-300 only logs *)
Definition fe_odometry : stmt :=
  Guard pre_m (
    Wr "fe.world_odometry" 273 ;; Rd "fe.world_odometry" 275 ;; Wr "fe.world_state" 274 ;;
    May (Rd "fe.world_odometry" 280 ;; May (Rd "fe.world_odometry" 284) ;; May (Rd "fe.world_odometry" 295)) ;;
    Wr "fe.imu_biases" 303 ;; Wr "fe.imu_bias_timestamp" 304 ;; Rd "fe.imu_bias_timestamp" 308 ;;
    interpolated_imu ;;
    Wr "fe.preintegration_params" 310 ;;
    Rd "fe.preintegration_params" 315 ;; Rd "fe.imu_biases" 315 ;; Wr "fe.preintegrated_imu" 315 ;;
    Rd "fe.imu_bias_timestamp" 316 ;; Wr "fe.last_preint_imu_timestamp" 316 ;;
    Guard imu_m (Loop (Rd "fe.imu_buffer" 320 ;; Rd "fe.last_preint_imu_timestamp" 321 ;;
                       May (Rd "fe.last_preint_imu_timestamp" 322 ;; Wr "fe.last_preint_imu_timestamp" 323 ;;
                            Rd "fe.preintegration_params" 324 ;; Wr "fe.preintegrated_imu" 324)))).
(* 329-533 *)
Definition fe_pointcloud : stmt :=
  Rd "fe.previous_pointcloud" 342 ;;
  May (
    Rd "fe.previous_pointcloud" 344 ;;
    (* 350-376 *)
    May (Lock ste_m ;; Rd "fe.stereo_buffer" 353 ;;
         protected_sleep ste_m true true (Loop (Rd "fe.stereo_buffer" 356 ;; Wr "fe.stereo_buffer" 357) ;; Rd "fe.stereo_buffer" 359) ;;
         Rd "fe.stereo_buffer" 365 ;;
         May (Rd "fe.stereo_buffer" 367 ;; May (Rd "fe.stereo_buffer" 370) ;; Wr "fe.stereo_buffer" 373) ;;
         Unlock ste_m) ;;
    (* 381-445 *)
    Rd "fe.initialised" 381 ;;
    Alt (Guard imu_m (Rd "fe.previous_state_time" 387 ;; Rd "fe.imu_buffer" 389 ;; Rd "fe.previous_state_time" 389 ;;
                      Loop (Rd "fe.imu_buffer" 395 ;; Rd "fe.previous_state_time" 396) ;; Wr "fe.imu_buffer" 400))
        (protected_sleep pre_m false false (Rd "fe.last_preint_imu_timestamp" 407) ;; interpolated_imu ;; Wr "fe.previous_state_time" 444) ;;
    Rd "fe.previous_pointcloud" 449 ;;
    (* 455-459: protected_sleep pre_m false false, with the mark set while the mutex is still held *)
    Lock pre_m ;;
    (Rd "fe.imu_bias_timestamp" 456 ;; Rd "fe.previous_state_time" 456 ;; Rd "fe.last_preint_imu_timestamp" 456) ;;
    Loop (Unlock pre_m ;; Sleep ;; Lock pre_m ;; Rd "fe.imu_bias_timestamp" 456 ;; Rd "fe.previous_state_time" 456 ;; Rd "fe.last_preint_imu_timestamp" 456) ;;
    Enter deskewing ;; Unlock pre_m ;; Quit ;;
    (* 461-504 *)
    Rd "fe.preintegration_params" 462 ;; Rd "fe.imu_biases" 462 ;;
    Lock imu_m ;;
    Rd "fe.initialised" 467 ;;
    Alt (Rd "fe.world_state" 474)
        (Rd "fe.imu_buffer" 477 ;; Rd "fe.previous_state_time" 477 ;; Rd "fe.preintegration_params" 477 ;;
         Rd "fe.world_state" 480 ;; Rd "fe.imu_biases" 480 ;; Rd "fe.preintegration_params" 480) ;;
    Rd "fe.imu_buffer" 487 ;; Rd "fe.preintegration_params" 487 ;;
    Unlock imu_m ;;
    Rd "fe.imu_biases" 493 ;; Rd "fe.preintegration_params" 493 ;;
    (* 506-515 *)
    Rd "fe.previous_pointcloud" 510 ;; Leave deskewing ;;
    (* 518-528 *)
    May (Guard bar_m (Wr "fe.barometer_timestamp_buffer" 520 ;; barometer_try_publish)) ;;
    Wr "fe.previous_state_time" 525 ;; Wr "fe.initialised" 528) ;;
  Wr "fe.previous_pointcloud" 532.
(* 562-577 *)
Definition fe_stereo : stmt :=
  Guard ste_m (Wr "fe.stereo_buffer" 571 ;; Rd "fe.stereo_buffer" 572 ;; May (Rd "fe.stereo_buffer" 575)).

(* ---- serpent/src/back_end/optimisation.cpp: the graph manager is one member, every call a write ---- *)
Definition gra_m := "be.graph_mutex".
Definition gm (l : nat) : stmt := Wr "be.gm" l.
(* 338-389 *)
Definition be_barometer : stmt :=
  Lock gra_m ;; gm 341 ;; protected_sleep gra_m true true (Loop (gm 343 ;; gm 344) ;; gm 346) ;;
  gm 350 ;; gm 360 ;; May (gm 367 ;; gm 374) ;; Loop (gm 380 ;; gm 381 ;; gm 383) ;; gm 387 ;; Unlock gra_m.
(* 391-472 *)
Definition be_imu : stmt :=
  Lock gra_m ;; gm 401 ;; protected_sleep gra_m true true (gm 405) ;;
  Wr "be.preintegration_params" 410 ;; Rd "be.preintegration_params" 412 ;; gm 412 ;; Rd "be.preintegration_params" 415 ;;
  gm 427 ;; gm 428 ;; gm 429 ;; Rd "be.preintegration_params" 429 ;; gm 430 ;; gm 431 ;; gm 435 ;; gm 443 ;; gm 451 ;;
  May (gm 459 ;; gm 460 ;; gm 466 ;; May (gm 467)) ;; Unlock gra_m.
(* 474-542 *)
Definition be_initial : stmt := Guard gra_m (gm 480 ;; gm 482 ;; gm 483 ;; gm 484 ;; gm 492 ;; May (gm 503 ;; gm 520)).
(* 694-714 *)
Definition be_registration : stmt := Guard gra_m (gm 698 ;; gm 701 ;; gm 702 ;; May (gm 704 ;; May (gm 708) ;; gm 712)).
(* 716-756; the repetition 720-754 runs at least once *)
Definition be_stereo_round : stmt :=
  gm 725 ;; protected_sleep gra_m true true (gm 726) ;;
  gm 731 ;; May (gm 732 ;; Alt (gm 734) (May (gm 735 ;; gm 740)) ;; gm 745 ;; May (gm 746 ;; May (gm 750))).
Definition be_stereo : stmt := Lock gra_m ;; be_stereo_round ;; Loop be_stereo_round ;; Unlock gra_m.

(* ---- serpent/include/serpent/mapping/mapping-inl.hpp ---- *)
Definition map_m := "mp.map_mutex".
(* 160-166 *)
Definition filter_pointcloud : stmt := Wr "mp.voxel_grid_filter" 162 ;; Wr "mp.voxel_grid_filter" 164.
(* 92-102, 104-131, 133-158, 177-230, 292-301 *)
Definition mp_update : stmt :=
  Guard map_m (
    Loop (Alt (Rd "mp.map" 204 ;; May (May (Wr "mp.pose_cloud_indices" 96 ;; Wr "mp.pose_cloud_timestamps" 97 ;; Wr "mp.pose_cloud" 98) ;; Wr "mp.map" 101))
              (Rd "mp.map" 295 ;; May (Wr "mp.map" 297 ;; Rd "mp.pose_cloud_indices" 298 ;; Wr "mp.pose_cloud" 298))) ;;
    Alt (Rd "mp.pose_cloud" 108 ;; Wr "mp.nearby_search" 108 ;; Rd "mp.nearby_search" 116 ;; Loop (Rd "mp.pose_cloud_timestamps" 120 ;; Rd "mp.map" 120))
        (Rd "mp.map" 137 ;; Loop (Rd "mp.map" 147)) ;;
    May filter_pointcloud).
(* 232-253 *)
Definition mp_pose_graph : stmt := Guard map_m (Loop (Rd "mp.map" 239)).
(* 255-282 *)
Definition mp_publish : stmt := Guard map_m (Rd "mp.map" 262 ;; Loop (Rd "mp.map" 266) ;; May filter_pointcloud).

(* ---- serpent/include/serpent/front_end/lidar/registration-inl.hpp ---- *)
Definition s2s_m := "rg.s2s_mutex".
(* 223-315 *)
Definition rg_s2s : stmt :=
  Rd "rg.previous_pointcloud" 227 ;;
  May (May (Rd "rg.previous_pointcloud" 243) ;; Wr "rg.s2s" 258 ;; Rd "rg.previous_pointcloud" 259 ;; Wr "rg.s2s" 259 ;; Wr "rg.s2s" 262 ;; Rd "rg.s2s" 265 ;; Rd "rg.previous_pointcloud" 295 ;;
       Alt (Guard s2s_m (Wr "rg.s2m_pointclouds" 305 ;; Wr "rg.s2s_registrations" 306)) (Rd "rg.s2s" 309)) ;;
  Wr "rg.previous_pointcloud" 314.
(* 317-367 *)
Definition rg_s2m : stmt :=
  protected_sleep s2s_m false true (Rd "rg.s2s_registrations" 321 ;; Rd "rg.s2m_pointclouds" 321) ;;
  Wr "rg.s2m_pointclouds" 327 ;; Wr "rg.s2s_registrations" 329 ;; Unlock s2s_m ;;
  Wr "rg.s2m" 334 ;; Wr "rg.s2m" 335 ;; Wr "rg.s2m" 338 ;; Rd "rg.s2m" 341 ;; Rd "rg.s2m" 366.

(* ---- modules with one callback per object ---- *)
Definition filter_with (f : string) : stmt := Wr f 106 ;; Wr f 108.          (* front_end/lidar/pointcloud_filter.cpp 105-110 *)
Definition format : stmt := May (Rd "fo.first_pointcloud_removed" 29 ;; May (Wr "fo.first_pointcloud_removed" 30)).   (* pointcloud_formatter.cpp 27-79 *)
Definition normals : stmt := Wr "ne.normal_estimation" 73.                   (* pointcloud_normal_estimation-inl.hpp 65-80 *)
Definition sf_stereo : stmt := Rd "sf.tracker" 337 ;; May (Wr "sf.tracker" 350) ;; Wr "sf.tracker" 369 ;;
  Wr "sf.previous_left_image" 429 ;; Wr "sf.previous_right_image" 430.       (* stereo_factor_finder.cpp 329-431 *)
Definition bf_lookup : stmt := Rd "bf.body_frames" 43.                       (* eigen_ros/src/body_frames_tf.cpp 41-45: only reads *)

Definition odometry_callback := "Frontend::optimised_odometry_callback".
Definition node : list callback :=
  (synced odometry_callback ["imu_biases"; "odometry"] fe_odometry ++             (* frontend.cpp: optimised_odometry_sync *)
   [sub "Frontend::pointcloud_callback" fe_pointcloud; sub "Frontend::imu_callback" fe_imu; sub "Frontend::barometer_callback" fe_barometer] ++
   synced "Frontend::stereo_callback" ["left_image"; "right_image"; "left_info"; "right_info"] fe_stereo ++
   [sub "Optimisation::barometer_callback" be_barometer; sub "Optimisation::imu_s2s_callback" be_imu;
    sub "Optimisation::initial_odometry_callback" be_initial; sub "Optimisation::registration_callback" be_registration;
    sub "Optimisation::stereo_features_callback" be_stereo] ++
   synced "Mapping::map_update_callback" ["pointcloud"; "path_changes"] mp_update ++
   [service "Mapping::publish_pose_graph_service_callback" mp_pose_graph; service "Mapping::publish_map_service_callback" mp_publish] ++
   synced "Registration::s2s_callback" ["pointcloud"; "imu_transform"] rg_s2s ++
   [sub "Registration::s2m_callback" rg_s2m;
    sub "PointcloudFormatter::format" format;
    sub "PointcloudFilter::body_filter_callback" (filter_with "fi.body_filter");
    sub "PointcloudFilter::random_sample_callback" (filter_with "fi.random_sample_filter");
    sub "PointcloudFilter::range_filter_callback" (filter_with "fi.range_filter");
    sub "PointcloudFilter::statistical_outlier_callback" (filter_with "fi.sor_filter");
    sub "PointcloudFilter::voxel_grid_callback" (filter_with "fi.voxel_grid_filter");
    sub "PointcloudAddUnitVectors::add_unit_vectors" Skip;
    sub "PointcloudNormalEstimation::normal_estimation_callback" normals] ++
   synced "StereoFactorFinder::stereo_callback" ["left_image"; "right_image"; "left_info"; "right_info"] sf_stereo ++
   [service "BodyFramesTf::lookup_transform" bf_lookup])%list.
(* positions in the list *)
Definition odometry_cbs : list nat := [0; 1].
Definition pointcloud_cb : nat := 2.
