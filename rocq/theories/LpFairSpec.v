(* Fair executions of the pipeline. *)
From Verif Require Import Base ImuModel FeModel FeSpec RegModel RegSpec GmModel GmReady BeModel BeSpec BeInv BeHealthy BeLive BeFair LpModel LpSpec.

(* who moves: the topics on the way to their receivers, the two callbacks of registration, the callbacks of the back
   end. Sensors, stereo features and the polling of the front end are inputs and not among them *)
Inductive agent := GOdom | GSend (t : tid) | GScan | GMap | GReg (w : who) | GBack (t : tid).
Definition does (g : agent) (a : option lact) : Prop :=
  match g, a with
  | GOdom, Some LOdom => True
  | GSend t, Some (LSend m) => msg_tid m = t /\ t <> TStereo
  | GScan, Some (LScan _) => True
  | GMap, Some LMap => True
  | GReg ThS, Some (LReg (RunS _ _)) => True
  | GReg ThM, Some (LReg (RunM _ _)) => True
  | GBack t, Some (LBack a) => moves t (Some a)
  | _, _ => False
  end.

Section Spec.
Variable bp : Z -> Z -> Z -> Z -> Z.
Variable al_s al_m : Z -> Z -> Z -> Z.
Variable fc : fcfg.
Variable c : config.
Variable s2m : bool.

Definition ready (g : agent) (p : past) (s : loop) : Prop := exists a s', does g (Some a) /\ fine fc p s a /\ lstep bp al_s al_m fc c s2m s a = Some (Ok s').

(* an infinite execution: at each instant nothing or one move, of a sensor or of a part *)
Record lexecution (p : nat -> past) (x : nat -> loop) (acts : nat -> option lact) : Prop := {
  le_start : lreach bp al_s al_m fc c s2m (p O) (x O);
  le_step : forall n, match acts n with
    | None => x (S n) = x n /\ p (S n) = p n
    | Some a => fine fc (p n) (x n) a /\ lstep bp al_s al_m fc c s2m (x n) a = Some (Ok (x (S n))) /\ p (S n) = note (x n) a (p n)
    end }.

(* who keeps becoming able to move for as long as they have not moved eventually moves *)
Definition fair_to (g : agent) (p : nat -> past) (x : nat -> loop) (acts : nat -> option lact) : Prop :=
  forall n, (forall m, (n <= m)%nat -> exists m', (m <= m')%nat /\ (ready g (p m') (x m') \/ exists j, (n <= j < m')%nat /\ does g (acts j))) ->
  exists m, (n <= m)%nat /\ does g (acts m).
Definition lfair (p : nat -> past) (x : nat -> loop) (acts : nat -> option lact) : Prop := forall g, fair_to g p x acts.

(* stamps of the states of the whole execution *)
Definition timeline (x : nat -> loop) (tau : nat -> Z) : Prop := forall n k t, nth_error (announced (f_out (l_f (x n)))) k = Some t -> tau k = t.

(* stereo features catch up with every cloud *)
Definition features_follow (p : nat -> past) (x : nat -> loop) : Prop :=
  c_stereo c = true -> forall n t, In t (cloud_stamps (l_f (x n))) -> exists m f, (n <= m)%nat /\ In f (on TStereo (h_b (p m))) /\ t <= stamp f.
End Spec.

Section Front.
Variable fc : fcfg.
(* the point cloud callback of the front end keeps being scheduled *)
Definition polled (acts : nat -> option lact) : Prop := forall n, exists m, (n <= m)%nat /\ acts m = Some LPoll.
(* IMU data reach past every sweep; with stereo, images reach its start *)
Definition imu_follows (p : nat -> past) : Prop :=
  forall n u sw, In (u, sw) (in_clouds (h_f (p n))) -> exists m t v, (n <= m)%nat /\ In (IImu t v) (h_f (p m)) /\ from_pcl u + sw <= t.
Definition images_follow (p : nat -> past) : Prop :=
  fc_stereo fc = true -> forall n u sw, In (u, sw) (in_clouds (h_f (p n))) -> exists m t, (n <= m)%nat /\ In (IStereo t) (h_f (p m)) /\ from_pcl u <= from_pcl (to_pcl t).
End Front.
