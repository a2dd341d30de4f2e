(* What is asked of the threads of a node *)
From Coq Require Import String List Arith Relations.
From Verif Require Import Base LkModel.
Import ListNotations.
Local Open Scope nat_scope.
Open Scope string_scope.

(* the next thing thread th does is to read or write f *)
Definition accesses (th : thread) (f : string) (write : bool) (line : nat) : Prop :=
  exists k, t_k th = (if write then Wr f line else Rd f line) :: k.

(* a data race: two threads are about to access the same member, at least one of them to write it *)
Record race (w : world) (c1 l1 c2 l2 : nat) (f : string) : Prop := {
  r_threads : exists t1 t2 th1 th2 b1 b2, t1 <> t2 /\ w_thr w t1 = Some th1 /\ w_thr w t2 = Some th2 /\
    t_cb th1 = c1 /\ t_cb th2 = c2 /\ accesses th1 f b1 l1 /\ accesses th2 f b2 l2 /\ (b1 = true \/ b2 = true) }.

(* t wants a mutex that t' holds *)
Definition waits (w : world) (t t' : nat) : Prop :=
  exists th m k, w_thr w t = Some th /\ t_k th = Lock m :: k /\ w_own w m = Some t'.
Definition can_step (P : list callback) (w : world) (t : nat) : Prop :=
  exists th e w', w_thr w t = Some th /\ tstep P w t e w'.

(* mutexes are used as std::mutex demands: given back only by their owner, not taken twice *)
Definition proper_use (w : world) : Prop :=
  forall t th m k, w_thr w t = Some th ->
    (t_k th = Unlock m :: k -> w_own w m = Some t) /\ (t_k th = Lock m :: k -> w_own w m <> Some t).

(* no optimised odometry reaches the front end while a cloud is being deskewed: the callbacks with the numbers odo do
   not take mutex m while another thread is in stretch x *)
Definition kept_out (x : string) (odo : list nat) (m : string) (w : world) (t : nat) (e : event) : Prop :=
  forall th t' th', w_thr w t = Some th -> In (t_cb th) odo -> e = Took m -> w_thr w t' = Some th' -> ~ In x (t_in th').

(* which mutex protects which member: comments of frontend.hpp 166-174; the other modules have one mutex each
   (optimisation.hpp 146, mapping.hpp 146, registration.hpp 101) *)
Definition protected_by : list (string * list string) :=
  [ ("fe.imu_data_mutex", ["fe.imu_buffer"]);
    ("fe.preintegration_mutex", ["fe.last_preint_imu_timestamp"; "fe.preintegration_params"; "fe.world_odometry"; "fe.world_state";
                                 "fe.preintegrated_imu"; "fe.imu_biases"; "fe.imu_bias_timestamp"]);
    ("fe.stereo_data_mutex", ["fe.stereo_buffer"]);
    ("fe.barometer_data_mutex", ["fe.barometer_buffer"; "fe.barometer_timestamp_buffer"]);
    ("be.graph_mutex", ["be.gm"; "be.preintegration_params"]);
    ("mp.map_mutex", ["mp.map"; "mp.pose_cloud"; "mp.pose_cloud_indices"; "mp.pose_cloud_timestamps"; "mp.nearby_search"; "mp.voxel_grid_filter"]);
    ("rg.s2s_mutex", ["rg.s2m_pointclouds"; "rg.s2s_registrations"]) ].
(* the members the point cloud callback reads while deskewing *)
Definition skew_data : list string := ["fe.preintegration_params"; "fe.world_state"; "fe.imu_biases"].
(* a write of the odometry callback against a read of the point cloud callback while it deskews *)
Definition skew_race (odo l_odo cl l_cl : nat) (f : string) : Prop :=
  In odo odometry_cbs /\ cl = pointcloud_cb /\ In (l_odo, f) [(274, "fe.world_state"); (303, "fe.imu_biases"); (310, "fe.preintegration_params")] /\ 462 <= l_cl <= 493.
