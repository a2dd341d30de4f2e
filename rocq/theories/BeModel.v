(* Model of serpent::Optimisation: the concurrent back end around the graph manager.
   Source: serpent/src/back_end/optimisation.cpp (OP), serpent/src/utils/utilities.cpp (UT),
   serpent/src/nodes/backend_node.cpp (BN).

   Callbacks run on a pool of worker threads (ros::AsyncSpinner, BN 42-48). roscpp runs at most one
   callback per subscription at a time, so there is one control state per subscription; a callback that
   sleeps in protected_sleep keeps its worker. All shared data is the graph manager, guarded by
   graph_mutex.

   Simplifications: poses, velocities, biases, transforms, preintegrated measurements, pressures and
   heights are opaque tokens (Z); each message carries the outcome of the numerical work done on it
   (validity flags, prediction/composition functions, optimiser oracle per optimised key). Logging is
   left out except where evaluating its arguments can throw. ros::ok() is read once per section. *)
From Verif Require Import Base GmModel.

Inductive tid := TInit | TImu | TReg | TStereo | TBaro.

(* one entry per subscription *)
Record per (A : Type) := mkPer { p_i : A; p_u : A; p_r : A; p_s : A; p_b : A }.
Arguments mkPer {A}. Arguments p_i {A}. Arguments p_u {A}. Arguments p_r {A}. Arguments p_s {A}. Arguments p_b {A}.

Definition pget {A} (f : per A) (t : tid) : A :=
  match t with TInit => p_i f | TImu => p_u f | TReg => p_r f | TStereo => p_s f | TBaro => p_b f end.
Definition upd {A} (f : per A) (t : tid) (a : A) : per A :=
  match t with
  | TInit => mkPer a (p_u f) (p_r f) (p_s f) (p_b f)
  | TImu => mkPer (p_i f) a (p_r f) (p_s f) (p_b f)
  | TReg => mkPer (p_i f) (p_u f) a (p_s f) (p_b f)
  | TStereo => mkPer (p_i f) (p_u f) (p_r f) a (p_b f)
  | TBaro => mkPer (p_i f) (p_u f) (p_r f) (p_s f) a
  end.
Definition pall {A} (a : A) : per A := mkPer a a a a a.

(* OP 66-70 factor switches; OP 104 publish_stereo_points; OP 252-260 marginalisation window;
   BN 42 number of worker threads *)
Record config := mkCfg {
  c_imu : bool; c_reg : bool; c_stereo : bool; c_baro : bool;
  c_points : bool; c_marg : option Z; c_cam : Z; c_pool : nat }.

(* calls made by the constructor, OP 162-172, 235-238, 252-260 (reached only if window >= 0) *)
Definition boot (c : config) : list gmop :=
  [OSetNamedKey "imu" 0 0]
  ++ (if c_reg c then [OSetNamedKey "reg" 0 0] else [])
  ++ (if c_stereo c then [OSetNamedKey "stereo" (-1) 0; OSetCam (c_cam c)] else [])
  ++ (if c_baro c then [OSetNamedKey "barometer" 0 1] else [])
  ++ (match c_marg c with Some w => [OSetMarg true w] | None => [] end).

(* what the numerical library does with one message *)
Record numerics := mkNum {
  n_opt : Z -> oracle;             (* optimiser, per optimised key *)
  n_predict : Z -> Z -> Z -> Z * Z; (* preintegration.predict(pose, velocity, bias) *)
  n_compose : Z -> Z;              (* pose * measured transform *)
  n_vel : Z -> Z -> Z -> Z;        (* velocity from two poses and the time between, OP 758-770 *)
  n_height : Z }.                  (* BarometricFactor::heightOut *)

Inductive msg :=
(* nav_msgs/Odometry: stamp, pose, velocity, zero bias token; prior sigmas without zero *)
| MInit (t p v b : Z) (sig_p sig_v noise : bool) (n : numerics)
(* serpent/ImuArray: end stamp, non-empty, preintegration checks pass, result without NaN *)
| MImu (t meas : Z) (nonempty preint finite : bool) (n : numerics)
(* PoseWithCovarianceStamped: stamp, transform, covariance valid, a zero sigma *)
| MReg (t tf : Z) (valid zero : bool) (n : numerics)
(* StereoFeatures: stamp, features (None: duplicate id, OP 19-26), baseline > 0, calibration *)
| MStereo (t : Z) (f : option (omap Z)) (baseline : bool) (calib : Z) (n : numerics)
(* FluidPressure: stamp, pressure, variance > 0, bias prior sigma non-zero *)
| MBaro (t pressure : Z) (var_pos noise : bool) (n : numerics).

Definition msg_tid (m : msg) : tid :=
  match m with
  | MInit _ _ _ _ _ _ _ _ => TInit | MImu _ _ _ _ _ _ => TImu | MReg _ _ _ _ _ => TReg
  | MStereo _ _ _ _ _ => TStereo | MBaro _ _ _ _ _ => TBaro
  end.

(* published messages *)
Inductive event :=
| EOdom (k t p v : Z)          (* optimisation/odometry *)
| EBias (t b : Z)              (* optimisation/imu_biases *)
| EPath (l : list (Z * Z))     (* output/path and path_changes: (stamp, pose) per key *)
| EPoints (l : omap Z)         (* debug/stereo_points *)
| ETransform (t : Z).          (* optimisation/imu_transform *)

(* a critical section ends by: unlocking and returning; unlocking and sleeping in protected_sleep (UT 80-84);
   going on with the same lock (next loop iteration); returning with the mutex still locked *)
Inductive loc := LFirst | LNext (next : Z) (inner : bool).
Inductive outcome := ODone | OSleep (l : loc) | OAgain (l : loc) | OLeak.

(* critical sections as programs over the graph manager: calls, reads, publications. An exception
   thrown by a call propagates. *)
Inductive prog :=
| PRet (o : outcome)
| PThrow
| PCall (op : gmop) (p : prog)
| PRead (k : igm -> prog)
| PEmit (e : event) (p : prog).

Definition rd {A} (q : igm -> res A) (k : A -> prog) : prog :=
  PRead (fun s => match q s with Ok a => k a | _ => PThrow end).

Definition q_key (name : string) (off : Z) (s : igm) : res Z := gm_key name off (i_gm s).
Definition q_ts (k : Z) (s : igm) : res Z := gm_timestamp k (i_gm s).
Definition q_get (c : sym) (k : Z) (s : igm) : res Z := gm_get c k (i_gm s).
Definition q_min (s : igm) : res Z := gm_minimum_key 0 (i_gm s).
(* marginalCovariance: throws for a variable the optimiser does not hold, GM 586-634 *)
Definition q_cov (c : sym) (k : Z) (s : igm) : res unit :=
  rbind (sym_key c k) (fun rk => if zmem rk (i_vars s) then Ok tt else Throw).

(* OP 772-785 convert_to_path *)
Fixpoint path_loop (s : igm) (ks : list Z) : res (list (Z * Z)) :=
  match ks with
  | [] => Ok []
  | k :: ks' =>
      rbind (gm_timestamp k (i_gm s)) (fun t => rbind (gm_get SymX k (i_gm s)) (fun p =>
      rbind (path_loop s ks') (fun l => Ok ((t, p) :: l))))
  end.
Definition q_path (key : Z) (s : igm) : res (list (Z * Z)) := path_loop s (zrange 0 key).

(* OP 567-617 publish. imu_bias_covariance (OP 597) is only evaluated when debug logging is on: left out *)
Definition p_publish (c : config) (key : Z) (k : prog) : prog :=
  rd (q_ts key) (fun t => rd (q_get SymX key) (fun p =>
  (fun rest => if c_stereo c then rest else rd (q_cov SymX key) (fun _ => rest)) (
  rd (q_get SymV key) (fun v =>
  (fun rest => if c_imu c then rd (q_cov SymV key) (fun _ => rest) else rest) (
  PEmit (EOdom key t p v) (
  rd (q_get SymB key) (fun b => PEmit (EBias t b) (
  rd (q_path key) (fun l => PEmit (EPath l) (
  if c_points c
  then rd (fun s => gm_stereo_landmarks (-1) (i_gm s)) (fun l => PEmit (EPoints l) k)
  else k)))))))))).

(* OP 539-565 optimise: the success message reads timestamp(key) inside the try block; errors are
   rethrown *)
Definition p_optimise (n : numerics) (key : Z) (k : prog) : prog :=
  PCall (OOptimise (n_opt n key) key) (rd (q_ts key) (fun _ => k)).

(* OP 535-537 *)
Definition p_opt_pub (c : config) (n : numerics) (key : Z) (k : prog) : prog :=
  p_optimise n key (p_publish c key k).

(* OP 758-770 update_velocity_from_transforms *)
Definition p_velocity (n : numerics) (name : string) (k : prog) : prog :=
  rd (q_key name 0) (fun key =>
  rd (q_get SymX (key - 1)) (fun p0 => rd (q_get SymX key) (fun p1 =>
  rd (fun s => gm_time_between (key - 1) key (i_gm s)) (fun dt =>
  PCall (OSetVel key (n_vel n p0 p1 dt)) k)))).

(* OP 474-533 initial_odometry_callback (lock_guard) *)
Definition p_init (c : config) (t p v b : Z) (sig_p sig_v noise : bool) (n : numerics) : prog :=
  PCall (OSetBias 0 b) (PCall (OSetPose 0 p) (PCall (OSetTimestamp 0 t) (PCall (OSetVel 0 v) (
  if negb sig_p then PThrow else
  rd (q_get SymX 0) (fun p0 => PCall (OCreate FPriorPose 0 p0) (
  (fun rest =>
     if c_imu c then
       if negb sig_v then PThrow else
       rd (q_get SymV 0) (fun v0 => PCall (OCreate FPriorVel 0 v0) (
       if negb noise then PThrow else
       rd (q_get SymB 0) (fun b0 => PCall (OCreate FPriorBias 0 b0) rest)))
     else rest) (
  PEmit (ETransform t) (
  p_opt_pub c n 0 (PRet ODone))))))))).

(* OP 391-472 imu_s2s_callback after graph_mutex.lock(). OP 401-404: the warning is evaluated once;
   its arguments read timestamp(opt_key) and timestamp("imu") *)
Definition p_imu (c : config) (ok : bool) (l : loc) (t meas : Z) (preint finite : bool) (n : numerics) : prog :=
  (fun rest =>
     match l with
     | LFirst => rd (q_key "imu" 0) (fun k => PRead (fun s =>
         if i_opt s =? k then rest
         else rd (q_ts (i_opt s)) (fun _ => rd (q_ts k) (fun _ => rest))))
     | _ => rest
     end) (
  if negb ok then PRet OLeak else                                              (* OP 405-407 *)
  rd (q_key "imu" 0) (fun k0 => PRead (fun s =>
  if negb (i_opt s =? k0) then PRet (OSleep (LNext 0 false)) else
  rd (q_get SymB k0) (fun b0 =>                                                (* OP 412 *)
  if negb preint then PThrow else                                              (* OP 410-424 *)
  PCall (OIncrement "imu") (                                                   (* OP 427 *)
  rd (q_key "imu" 0) (fun k =>
  rd (q_get SymB (k - 1)) (fun b => PCall (OSetBias k b) (                     (* OP 428 *)
  rd (q_get SymX (k - 1)) (fun p => rd (q_get SymV (k - 1)) (fun v =>
  PCall (OSetNavstate k (fst (n_predict n p v b)) (snd (n_predict n p v b))) ( (* OP 429 *)
  PCall (OSetTimestamp k t) (                                                  (* OP 430 *)
  if negb finite then PThrow else                                              (* OP 431-438 *)
  rd (q_get SymX (k - 1)) (fun _ => rd (q_get SymX k) (fun _ =>                (* OP 442-443 *)
  PEmit (ETransform t) (                                                       (* OP 449-455 *)
  if c_imu c then
    PCall (OCreate FImu k meas) (                                              (* OP 459-461 *)
    rd q_min (fun mk => if mk =? k then p_opt_pub c n k (PRet ODone) else PRet ODone))  (* OP 467-469 *)
  else PRet ODone))))))))))))))).

(* OP 263-297, 694-714 registration_callback (lock_guard) *)
Definition p_reg (c : config) (t tf : Z) (valid zero : bool) (n : numerics) : prog :=
  PCall (OIncrement "reg") (
  rd (q_key "reg" 0) (fun k => rd (q_ts k) (fun tk =>
  if negb (tk =? t) then PThrow else
  if valid then PThrow else                                                    (* OP 277-280 *)
  if zero then PThrow else                                                     (* OP 286-288 *)
  rd (q_get SymX (k - 1)) (fun p => PCall (OSetPose k (n_compose n p)) (       (* OP 291 *)
  PCall (OCreate FBetweenPose k tf) (                                          (* OP 294-295 *)
  rd q_min (fun mk =>
  if mk =? k then                                                              (* OP 702 *)
    p_optimise n k (
    (fun rest => if c_imu c then rest else p_velocity n "reg" rest) (
    p_publish c k (PRet ODone)))
  else PRet ODone)))))) ).

(* OP 299-336 add_stereo_factors *)
Definition p_add_stereo (t : Z) (f : option (omap Z)) (baseline : bool) (calib : Z) (k : prog) : prog :=
  PCall (OIncrement "stereo") (
  rd (q_key "stereo" 0) (fun ks => rd (q_ts ks) (fun ts =>
  if negb (ts =? t) then PThrow else
  PRead (fun s =>
  (fun rest => match g_calib (i_gm s) with
               | Some _ => rest
               | None => if negb baseline then PThrow else PCall (OSetCalib calib) rest
               end) (
  match f with
  | None => PThrow
  | Some f => PCall (OStereo ks f) (rd (q_ts ks) (fun _ => k))
  end))))).

(* one iteration of OP 720-754, stereo_features_callback *)
Definition p_stereo (c : config) (ok : bool) (t : Z) (f : option (omap Z)) (baseline : bool) (calib : Z)
    (n : numerics) : prog :=
  if negb ok then PRet OLeak else                                              (* OP 726-728 *)
  rd (q_key "stereo" 1) (fun k1 =>
  rd (fun s => gm_has SymX k1 (i_gm s)) (fun has =>
  if negb has then PRet (OSleep LFirst) else
  rd (q_ts k1) (fun t1 =>
  if t <? t1 then PRet ODone else
  (fun rest =>
     if t =? t1 then p_add_stereo t f baseline calib (rest ODone)
     else PCall (OIncrement "stereo") (rest (OAgain LFirst))) (fun out =>
  rd q_min (fun mk => rd (q_key "stereo" 0) (fun k =>                          (* OP 745 *)
  if (mk =? k) && (0 <? k) then
    p_opt_pub c n k (
    (fun rest => if c_imu c then rest else p_velocity n "stereo" rest) (PRet out))
  else PRet out)))))).

(* OP 376-381: bias chain from key k for n steps *)
Fixpoint p_chain (n : nat) (k : Z) (rest : prog) : prog :=
  match n with
  | O => rest
  | S n' => PCall (OCreate FBaroBias k 0) (
            rd (q_get SymP (k - 1)) (fun b => PCall (OSetBaro k b) (p_chain n' (k + 1) rest)))
  end.

(* OP 348-387: after the wait *)
Definition p_baro_body (next t pressure : Z) (var_pos noise : bool) (n : numerics) : prog :=
  rd (q_key "barometer" 0) (fun k => rd (q_ts k) (fun tk =>
  if negb (tk =? t) then PThrow else                                           (* OP 350-352 *)
  if negb var_pos then PThrow else                                             (* OP 355-357 *)
  PCall (OCreate FBaro k pressure) (                                           (* OP 360-361 *)
  (fun rest =>
     if next =? 0 then                                                         (* OP 365-377 *)
       PCall (OSetBaro 0 (n_height n)) (
       if negb noise then PThrow else PCall (OCreate FPriorBaro k (n_height n)) rest)
     else rest) (
  p_chain (Z.to_nat (k - Z.max 1 next + 1)) (Z.max 1 next) (                   (* OP 379-384 *)
  PCall (OIncrement "barometer") (PRet ODone)))))).                            (* OP 387-388 *)

(* OP 338-389 barometer_callback. The condition of protected_sleep (OP 342-346) advances the key in a
   loop: one iteration per section, [inner] true; ros::ok() is tested before the first one *)
Definition p_baro (ok : bool) (l : loc) (t pressure : Z) (var_pos noise : bool) (n : numerics) : prog :=
  rd (q_key "barometer" 0) (fun k =>
  let next := match l with LFirst => k | LNext x _ => x end in                 (* OP 341 *)
  let inner := match l with LNext _ true => true | _ => false end in
  if negb ok && negb inner then PRet OLeak else
  rd (fun s => gm_has SymX k (i_gm s)) (fun has =>
  if negb has then PRet (OSleep (LNext next false)) else
  rd (q_ts k) (fun tk =>
  if tk <? t then PCall (OIncrement "barometer") (PRet (OAgain (LNext next true)))
  else if negb ok then PRet OLeak                                              (* UT 88 *)
  else p_baro_body next t pressure var_pos noise n))).

(* the critical section a callback executes after acquiring the mutex *)
Definition section (c : config) (ok : bool) (m : msg) (l : loc) : prog :=
  match m with
  | MInit t p v b sp sv nz n => p_init c t p v b sp sv nz n
  | MImu t meas _ pr fi n => p_imu c ok l t meas pr fi n
  | MReg t tf va ze n => p_reg c t tf va ze n
  | MStereo t f ba ca n => p_stereo c ok t f ba ca n
  | MBaro t pr vp nz n => p_baro ok l t pr vp nz n
  end.

(* std::lock_guard callbacks release the mutex when an exception leaves them; the others call
   lock/unlock by hand and leave it locked *)
Definition raii (m : msg) : bool :=
  match m with MInit _ _ _ _ _ _ _ _ | MReg _ _ _ _ _ => true | _ => false end.

(* OP 393-397: the imu callback rejects an empty array before locking *)
Definition prelude_ok (m : msg) : bool := match m with MImu _ _ ne _ _ _ => ne | _ => true end.

(* ---------------------------------------------------------------------------------------------- *)
(* The concurrent system. Every graph manager call, read and publication is one atomic step of the
   thread executing it; nothing in the semantics checks that this thread owns the mutex. *)
Inductive ctl :=
| CIdle                        (* no callback running for this subscription *)
| CWant (m : msg) (l : loc)    (* about to lock graph_mutex *)
| CHold (m : msg) (l : loc)    (* mutex acquired, section (or next loop iteration) about to start *)
| CRun (m : msg) (p : prog)    (* inside the section: what is left of it *)
| CFail (leak : bool).         (* callback left by an exception or by the shutdown return *)

Record sys := mkSys {
  y_g : igm;                   (* graph manager *)
  y_log : list gmop;           (* calls made on it, oldest first *)
  y_ev : list event;           (* messages published, oldest first *)
  y_mutex : option tid;        (* owner of graph_mutex *)
  y_ctl : per ctl;
  y_q : per (list msg);        (* delivered, not yet dispatched *)
  y_ok : bool }.               (* ros::ok() *)

Inductive act :=
| ADeliver (m : msg)           (* message arrives on its topic *)
| ADispatch (t : tid)          (* a free worker takes the next message *)
| ALock (t : tid)              (* graph_mutex acquired *)
| AStep (t : tid)              (* start of a section, or its next operation *)
| AShutdown.

(* subscriptions made by the constructor, OP 60-62, 86-97 *)
Definition subscribed (c : config) (t : tid) : bool :=
  match t with TInit | TImu => true | TReg => c_reg c | TStereo => c_stereo c | TBaro => c_baro c end.

Definition busy (x : ctl) : bool := match x with CWant _ _ | CHold _ _ | CRun _ _ => true | _ => false end.
Definition all_tids : list tid := [TInit; TImu; TReg; TStereo; TBaro].
Definition workers (s : sys) : nat := List.length (filter (fun t => busy (pget (y_ctl s) t)) all_tids).
Definition worker_free (c : config) (s : sys) : bool := Nat.ltb (workers s) (c_pool c).

Section Sem.
Variable bp : Z -> Z -> Z -> Z -> Z.
Variable c : config.

Definition sys_init : sys :=
  mkSys (gm_run bp igm_init (boot c)) (boot c) [] None (pall CIdle) (pall []) true.

(* end of a section *)
Definition finish (s : sys) (t : tid) (m : msg) (o : outcome) : sys :=
  match o with
  | ODone => mkSys (y_g s) (y_log s) (y_ev s) None (upd (y_ctl s) t CIdle) (y_q s) (y_ok s)
  | OSleep l => mkSys (y_g s) (y_log s) (y_ev s) None (upd (y_ctl s) t (CWant m l)) (y_q s) (y_ok s)
  | OAgain l => mkSys (y_g s) (y_log s) (y_ev s) (y_mutex s)
                      (upd (y_ctl s) t (CHold m l)) (y_q s) (y_ok s)
  | OLeak => mkSys (y_g s) (y_log s) (y_ev s) (y_mutex s) (upd (y_ctl s) t (CFail true)) (y_q s) (y_ok s)
  end.

Definition throws (s : sys) (t : tid) (m : msg) : sys :=
  mkSys (y_g s) (y_log s) (y_ev s) (if raii m then None else y_mutex s)
        (upd (y_ctl s) t (CFail (negb (raii m)))) (y_q s) (y_ok s).

(* one operation of the section run by thread t *)
Definition micro (s : sys) (t : tid) (m : msg) (p : prog) : sys :=
  match p with
  | PRet o => finish s t m o
  | PThrow => throws s t m
  | PCall op k =>
      let '(g, r) := gm_step bp (y_g s) op in
      let s' := mkSys g (y_log s ++ [op]) (y_ev s) (y_mutex s) (upd (y_ctl s) t (CRun m k)) (y_q s) (y_ok s) in
      match r with Ok _ => s' | _ => throws s' t m end
  | PRead k => mkSys (y_g s) (y_log s) (y_ev s) (y_mutex s) (upd (y_ctl s) t (CRun m (k (y_g s)))) (y_q s) (y_ok s)
  | PEmit e k => mkSys (y_g s) (y_log s) (y_ev s ++ [e]) (y_mutex s) (upd (y_ctl s) t (CRun m k)) (y_q s) (y_ok s)
  end.

Definition sys_step (s : sys) (a : act) : option sys :=
  match a with
  | ADeliver m =>
      if subscribed c (msg_tid m)
      then Some (mkSys (y_g s) (y_log s) (y_ev s) (y_mutex s) (y_ctl s)
                       (upd (y_q s) (msg_tid m) (pget (y_q s) (msg_tid m) ++ [m])) (y_ok s))
      else None
  | ADispatch t =>
      match pget (y_ctl s) t, pget (y_q s) t with
      | CIdle, m :: q =>
          if worker_free c s then
            let x := if prelude_ok m then CWant m LFirst else CFail false in
            Some (mkSys (y_g s) (y_log s) (y_ev s) (y_mutex s) (upd (y_ctl s) t x) (upd (y_q s) t q) (y_ok s))
          else None
      | _, _ => None
      end
  | ALock t =>
      match pget (y_ctl s) t, y_mutex s with
      | CWant m l, None =>
          Some (mkSys (y_g s) (y_log s) (y_ev s) (Some t) (upd (y_ctl s) t (CHold m l)) (y_q s) (y_ok s))
      | _, _ => None
      end
  | AStep t =>
      match pget (y_ctl s) t with
      | CHold m l =>
          Some (mkSys (y_g s) (y_log s) (y_ev s) (y_mutex s)
                      (upd (y_ctl s) t (CRun m (section c (y_ok s) m l))) (y_q s) (y_ok s))
      | CRun m p => Some (micro s t m p)
      | _ => None
      end
  | AShutdown => Some (mkSys (y_g s) (y_log s) (y_ev s) (y_mutex s) (y_ctl s) (y_q s) false)
  end.

Fixpoint sys_run (s : sys) (acts : list act) : option sys :=
  match acts with
  | [] => Some s
  | a :: acts' => match sys_step s a with Some s' => sys_run s' acts' | None => None end
  end.

(* states the system can be in *)
Definition reachable (s : sys) : Prop := exists acts, sys_run sys_init acts = Some s.

End Sem.
