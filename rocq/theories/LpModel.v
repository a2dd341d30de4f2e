(* The whole pipeline: front end, scan registration and back end connected by their topics.

   Components: serpent/src/front_end/frontend.cpp (FeModel), serpent/include/serpent/front_end/lidar/
   registration-inl.hpp (RegModel), serpent/src/back_end/optimisation.cpp (BeModel). Topics, as made by the
   constructors (frontend.cpp 36-89, registration-inl.hpp 73-84, optimisation.cpp 50-97, mapping-inl.hpp 44-52):
     frontend/initial_odometry, frontend/imu_s2s, frontend/barometer      front end -> back end
     frontend/deskewed_pointcloud ... normal_estimation/pointcloud        front end -> registration (with optimisation/imu_transform), mapping
     registration/transform                                               registration -> back end
     optimisation/odometry with optimisation/imu_biases                   back end -> front end
     mapping/local_map                                                    mapping -> registration

   Each topic keeps its order and loses nothing (the queues of the subscriptions are taken as long enough); a
   message may stay on its way for any length of time. The lidar filters and the normal estimator between front
   end and registration are part of that way: they pass clouds on in order with their stamps. A cloud meets the
   transform with its stamp (TimeSynchronizer, registration-inl.hpp 80-81). The mapping module is reduced to
   its traffic: one local map per pair of cloud and path with the same stamp (mapping-inl.hpp 51-52, 228); the path
   of a state is published with its odometry (optimisation.cpp 606-608). Clouds and maps are their stamps in
   nanoseconds, transforms tokens. Simplified: odometry can be delivered as soon as it is published, though the
   synchroniser also waits for the biases published right after it; stereo features are an input. *)
From Verif Require Import Base ImuModel FeModel FeSpec RegModel GmModel BeModel BeInv BeHealthy.

Record loop := mkLoop {
  l_f : fe; l_r : rst Z Z; l_b : sys;
  l_in : per nat;      (* messages delivered to the back end, per subscription *)
  l_odo : nat;         (* odometry messages delivered to the front end *)
  l_scn : nat;         (* clouds delivered to registration *)
  l_map : nat }.       (* local maps delivered to registration *)

Inductive lact :=
| LSensor (i : fin)            (* a sensor message reaches the front end *)
| LPoll                        (* the point cloud callback of the front end goes on *)
| LOdom                        (* the next odometry reaches the front end *)
| LSend (m : msg)              (* the next message of its topic reaches the back end *)
| LScan (g : Z)                (* the next cloud meets its transform *)
| LMap                         (* the next local map reaches registration *)
| LReg (l : lab Z Z)           (* registration works: RunS or RunM *)
| LBack (a : act).             (* back end works: dispatch, lock or step *)

Definition sensor (i : fin) : bool := match i with IImu _ _ | IStereo _ | IBaro _ _ | ICloud _ _ => true | _ => false end.
Definition works (l : lab Z Z) : bool := match l with RunS _ _ | RunM _ _ => true | _ => false end.
Definition internalb (a : act) : bool := match a with ADispatch _ | ALock _ | AStep _ => true | _ => false end.

(* stamps of what the components have put on the topics *)
Definition cloud_stamps (f : fe) : list Z := map (fun x => from_pcl (fst x)) (out_clouds (f_out f)).
Definition posted (s : loop) (t : tid) : list Z :=
  match t with
  | TInit => out_inits (f_out (l_f s))
  | TImu => map snd (out_spans (f_out (l_f s)))
  | TReg => map fst (r_pub Z Z (l_r s))
  | TBaro => map fst (out_baros (f_out (l_f s)))
  | TStereo => []
  end.
(* message m is the next one of its topic *)
Definition next_on (s : loop) (m : msg) : bool :=
  match m with
  | MStereo _ _ _ _ _ => true
  | _ => match nth_error (posted s (msg_tid m)) (pget (l_in s) (msg_tid m)) with Some t => t =? stamp m | None => false end
  end.

Section Sem.
Variable bp : Z -> Z -> Z -> Z -> Z.        (* the dead reckoning of the graph manager, as in BeModel *)
Variable al_s al_m : Z -> Z -> Z -> Z.      (* the two alignments, as in RegModel *)
Variable fc : fcfg.
Variable c : config.
Variable s2m : bool.

Definition loop_init : loop := mkLoop fe_init (rinit Z Z) (sys_init bp c) (pall 0%nat) 0 0 0.

Definition with_f (s : loop) (r : res fe) (n : nat) : option (res loop) :=
  Some (rbind r (fun f => Ok (mkLoop f (l_r s) (l_b s) (l_in s) n (l_scn s) (l_map s)))).
Definition with_r (s : loop) (r : option (res (rst Z Z))) (n m : nat) : option (res loop) :=
  option_map (fun r => rbind r (fun x => Ok (mkLoop (l_f s) x (l_b s) (l_in s) (l_odo s) n m))) r.

(* None: cannot happen now; Throw, UB: an exception or undefined behaviour in the front end or in registration.
   A callback of the back end left by an exception shows in its control state (CFail) *)
Definition lstep (s : loop) (a : lact) : option (res loop) :=
  match a with
  | LSensor i => if sensor i then with_f s (fe_step fc (l_f s) i) (l_odo s) else None
  | LPoll => with_f s (fe_step fc (l_f s) IPoll) (l_odo s)
  | LOdom =>
      match nth_error (odoms (y_ev (l_b s))) (l_odo s) with
      | Some (_, t) => with_f s (fe_step fc (l_f s) (IOdom t)) (S (l_odo s))
      | None => None
      end
  | LSend m =>
      if next_on s m then
        option_map (fun b => Ok (mkLoop (l_f s) (l_r s) b (upd (l_in s) (msg_tid m) (S (pget (l_in s) (msg_tid m)))) (l_odo s) (l_scn s) (l_map s)))
                   (sys_step bp c (l_b s) (ADeliver m))
      else None
  | LScan g =>
      match nth_error (cloud_stamps (l_f s)) (l_scn s) with
      | Some t => if existsb (Z.eqb t) (trans (y_ev (l_b s)))
                  then with_r s (rstep Z Z al_s al_m s2m (InS Z Z t g) (l_r s)) (S (l_scn s)) (l_map s) else None
      | None => None
      end
  | LMap =>
      match nth_error (cloud_stamps (l_f s)) (l_map s), nth_error (odoms (y_ev (l_b s))) (l_map s) with
      | Some t, Some _ => with_r s (rstep Z Z al_s al_m s2m (InM Z Z t) (l_r s)) (l_scn s) (S (l_map s))
      | _, _ => None
      end
  | LReg l => if works l then with_r s (rstep Z Z al_s al_m s2m l (l_r s)) (l_scn s) (l_map s) else None
  | LBack a =>
      if internalb a then
        option_map (fun b => Ok (mkLoop (l_f s) (l_r s) b (l_in s) (l_odo s) (l_scn s) (l_map s))) (sys_step bp c (l_b s) a)
      else None
  end.

Fixpoint lrun (s : loop) (l : list lact) : option (res loop) :=
  match l with
  | [] => Some (Ok s)
  | a :: l' => match lstep s a with Some (Ok s') => lrun s' l' | r => r end
  end.
End Sem.
