(* Model of serpent::Frontend, serpent/src/front_end/frontend.cpp (FE), serpent/src/utils/utilities.cpp (UT).

   The point cloud callback is cut where it releases or waits for a mutex; the other callbacks hold
   their mutexes throughout and are single steps. Times are nanoseconds; point cloud stamps are the
   microseconds of pcl::PCLHeader. Measurement payloads, pressures and images are opaque. Left out: the
   numerical content of odometry messages, TF, the covariance check of update_preintegration_params
   (FE 310), empty point clouds (FE 331-334), shutdown. An exception or undefined behaviour ends the run
   (roscpp does not catch exceptions of callbacks). *)
From Verif Require Import Base ImuModel.

(* pcl_conversions::toPCL / fromPCL: whole microseconds *)
Definition to_pcl (t : Z) : Z := t / 1000.
Definition from_pcl (u : Z) : Z := u * 1000.

(* ---- barometer, FE 150-186; UT 55-65, utilities-inl 9-17 ---- *)
Inductive src :=
| First (m : Z * Z)                 (* the oldest measurement, restamped *)
| Between (m1 m2 : Z * Z).          (* interpolation of two measurements *)
Record bar := mkBar { b_buf : list (Z * Z); b_ts : list Z }.

(* FE 176-178; at(1) throws when there is no second element *)
Fixpoint bar_trim (t : Z) (b : list (Z * Z)) : res (list (Z * Z)) :=
  match b with
  | x :: (y :: _) as b' => if fst y <? t then bar_trim t b' else Ok b
  | _ => Throw
  end.
(* utilities-inl 12-14 *)
Definition interpolable (t1 t2 t : Z) : bool := (t1 <? t2) && (t1 <=? t) && (t <=? t2).
(* FE 162-186; result: new state and what is published *)
Definition bar_try (s : bar) : res (bar * list (Z * src)) :=
  match b_ts s with
  | [] => Ok (s, [])
  | t :: ts =>
      match b_buf s with
      | [] => UB                                                            (* FE 165: front() of an empty deque *)
      | m :: r =>
          if t <? fst m then Ok (mkBar (b_buf s) ts, [(t, First m)])        (* FE 165-172 *)
          else if (match r with [] => false | _ => true end) && (t <? fst (last r m)) then   (* FE 173-174 *)
            rbind (bar_trim t (b_buf s)) (fun b =>
            match b with
            | m1 :: m2 :: _ => if interpolable (fst m1) (fst m2) t then Ok (mkBar b ts, [(t, Between m1 m2)]) else Throw
            | _ => Throw
            end)
          else Ok (s, [])
      end
  end.
(* FE 150-160 *)
Definition bar_measure (m : Z * Z) (s : bar) : res (bar * list (Z * src)) := bar_try (mkBar (b_buf s ++ [m]) (b_ts s)).
(* FE 518-522 *)
Definition bar_state (t : Z) (s : bar) : res (bar * list (Z * src)) := bar_try (mkBar (b_buf s) (b_ts s ++ [t])).

(* ---- front end ---- *)
Record fcfg := mkFcfg { fc_stereo : bool; fc_graph_only : bool; fc_baro : bool }.

Inductive fin :=
| IImu (t v : Z)             (* input/imu *)
| IStereo (t : Z)            (* stereo images *)
| IBaro (t p : Z)            (* input/barometer *)
| IOdom (t : Z)              (* optimisation/odometry with optimisation/imu_biases *)
| ICloud (u sw : Z)          (* formatter/formatted_pointcloud: stamp in microseconds, sweep duration *)
| IPoll.                     (* the point cloud callback goes on, or its sleep ends *)

Inductive fout :=
| OInit (t : Z)                                  (* frontend/initial_odometry *)
| OArray (a b : Z) (l : list imu)                (* frontend/imu_s2s *)
| OCloud (u : Z) (cl : Z * Z) (before sweep : list step)   (* frontend/deskewed_pointcloud: new stamp, the cloud it was made of, integrations behind it *)
| OImage (t : Z)                                 (* republished stereo images *)
| OBaro (t : Z) (s : src)                        (* frontend/barometer *)
| ORate (t : Z).                                 (* output/odometry at imu rate *)

Inductive phase :=
| PIdle
| PStereo (u sw : Z)             (* FE 350-363: before or during the wait for stereo data *)
| PChosen (u sw new : Z)         (* FE 378: state time chosen *)
| PBias (u sw new : Z)           (* FE 452-459 *)
| PSkew (u sw new : Z)           (* FE 461: waiting is over *)
| PBaro (u sw new : Z).          (* FE 517: cloud published *)

Record fe := mkFe {
  f_imu : list imu; f_st : list Z; f_bar : bar; f_prev : option (Z * Z); f_pst : Z; f_init : bool;
  f_last : Z;                    (* last_preint_imu_timestamp *)
  f_bias : Z;                    (* imu_bias_timestamp *)
  f_pre : option (list step);    (* steps given to preintegrated_imu since it was created *)
  f_pc : phase; f_out : list fout }.

Definition fe_init : fe := mkFe [] [] (mkBar [] []) None 0 false 0 0 None PIdle [].

Definition out (s : fe) (l : list fout) : fe :=
  mkFe (f_imu s) (f_st s) (f_bar s) (f_prev s) (f_pst s) (f_init s) (f_last s) (f_bias s) (f_pre s) (f_pc s) (f_out s ++ l).
Definition go (s : fe) (p : phase) : fe :=
  mkFe (f_imu s) (f_st s) (f_bar s) (f_prev s) (f_pst s) (f_init s) (f_last s) (f_bias s) (f_pre s) p (f_out s).

(* FE 204-255 *)
Definition imu_callback (t v : Z) (s : fe) : res fe :=
  let s1 pre := mkFe (f_imu s ++ [(t, v)]) (f_st s) (f_bar s) (f_prev s) (f_pst s) (f_init s) t (f_bias s) pre (f_pc s) (f_out s) in
  match f_pre s with
  | None => Ok (s1 None)
  | Some l => rbind (preintegrate [(v, t - f_last s)]) (fun d => Ok (out (s1 (Some (l ++ d))) [ORate t]))
  end.

(* FE 318-326: remaining measurements after the bias *)
Fixpoint catch_up (last : Z) (b : list imu) : list step * Z :=
  match b with
  | [] => ([], last)
  | (t, v) :: b' => if last <? t then let '(l, e) := catch_up t b' in ((v, t - last) :: l, e) else catch_up last b'
  end.
(* FE 268-327 *)
Definition odometry_callback (t : Z) (s : fe) : res fe :=
  rbind (imu_neighbours t (f_imu s)) (fun _ =>
  let '(l, e) := catch_up t (f_imu s) in
  rbind (preintegrate l) (fun l' =>
  Ok (mkFe (f_imu s) (f_st s) (f_bar s) (f_prev s) (f_pst s) (f_init s) e t (Some l') (f_pc s) (f_out s)))).

(* FE 562-577 *)
Definition stereo_callback (c : fcfg) (t : Z) (s : fe) : fe :=
  let t' := from_pcl (to_pcl t) in
  let s1 := mkFe (f_imu s) (f_st s ++ [t']) (f_bar s) (f_prev s) (f_pst s) (f_init s) (f_last s) (f_bias s) (f_pre s) (f_pc s) (f_out s) in
  if fc_graph_only c then s1 else out s1 [OImage t'].

Definition set_bar (s : fe) (r : bar * list (Z * src)) : fe :=
  out (mkFe (f_imu s) (f_st s) (fst r) (f_prev s) (f_pst s) (f_init s) (f_last s) (f_bias s) (f_pre s) (f_pc s) (f_out s))
      (map (fun x => OBaro (fst x) (snd x)) (snd r)).

Fixpoint drop_before (t : Z) (l : list Z) : list Z :=
  match l with [] => [] | x :: l' => if x <? t then drop_before t l' else l end.

(* FE 329-533, piece by piece *)
Definition cloud_poll (c : fcfg) (s : fe) : res fe :=
  match f_pc s, f_prev s with
  | PStereo u sw, Some (pu, psw) =>
      let start := from_pcl pu in
      let st := drop_before start (f_st s) in                                   (* FE 356-358 *)
      let s1 l := mkFe (f_imu s) l (f_bar s) (f_prev s) (f_pst s) (f_init s) (f_last s) (f_bias s) (f_pre s) (f_pc s) (f_out s) in
      match st with
      | [] => Ok (s1 [])                                                        (* FE 359: sleep *)
      | t :: st' =>
          if t <? from_pcl u                                                    (* FE 365-374 *)
          then Ok (go (out (s1 st') (if fc_graph_only c then [OImage t] else [])) (PChosen u sw t))
          else Ok (go (s1 st) (PChosen u sw start))
      end
  | PChosen u sw new, Some _ =>
      if f_init s then
        match f_imu s with
        | [] => UB                                                              (* FE 389 *)
        | (t0, _) :: _ =>
            if f_pst s <? t0 then Throw else                                    (* FE 389-391 *)
            rbind (select_imu (f_pst s) new (f_imu s)) (fun l =>
            match l with
            | [] => UB                                                          (* FE 400 *)
            | (t1, _) :: _ =>
                Ok (go (out (mkFe (delete_old t1 (f_imu s)) (f_st s) (f_bar s) (f_prev s) (f_pst s) (f_init s) (f_last s) (f_bias s) (f_pre s) (f_pc s) (f_out s))
                            [OArray (f_pst s) new l]) (PBias u sw new))
            end)
        end
      else if f_last s <? new then Ok s                                         (* FE 406-407: sleep *)
      else rbind (imu_neighbours new (f_imu s)) (fun _ =>                       (* FE 412 *)
           Ok (go (out (mkFe (f_imu s) (f_st s) (f_bar s) (f_prev s) new (f_init s) (f_last s) (f_bias s) (f_pre s) (f_pc s) (f_out s))
                       [OInit new]) (PBias u sw new)))                          (* FE 440-444 *)
  | PBias u sw new, Some (pu, psw) =>                                           (* FE 455-459 *)
      if negb (f_bias s =? f_pst s) || (f_last s <? from_pcl pu + psw) then Ok s else Ok (go s (PSkew u sw new))
  | PSkew u sw new, Some (pu, psw) =>                                           (* FE 461-515 *)
      let start := from_pcl pu in
      rbind (if f_init s then integrate_imu (f_imu s) (f_pst s) start else Ok []) (fun l1 =>
      rbind (integrate_imu (f_imu s) start (start + psw)) (fun l2 =>
      Ok (go (out s [OCloud (to_pcl new) (pu, psw) l1 l2]) (PBaro u sw new))))
  | PBaro u sw new, Some _ =>                                                   (* FE 517-532 *)
      rbind (if fc_baro c then rbind (bar_state new (f_bar s)) (fun r => Ok (set_bar s r)) else Ok s) (fun s1 =>
      Ok (mkFe (f_imu s1) (f_st s1) (f_bar s1) (Some (u, sw)) new true (f_last s1) (f_bias s1) (f_pre s1) PIdle (f_out s1)))
  | _, _ => Ok s
  end.

Definition fe_step (c : fcfg) (s : fe) (i : fin) : res fe :=
  match i with
  | IImu t v => imu_callback t v s
  | IStereo t => if fc_stereo c then Ok (stereo_callback c t s) else Ok s
  | IBaro t p => if fc_baro c then rbind (bar_measure (t, p) (f_bar s)) (fun r => Ok (set_bar s r)) else Ok s
  | IOdom t => odometry_callback t s
  | ICloud u sw =>                                                              (* FE 329-349, one callback at a time *)
      match f_pc s with
      | PIdle =>
          match f_prev s with
          | None => Ok (mkFe (f_imu s) (f_st s) (f_bar s) (Some (u, sw)) (f_pst s) (f_init s) (f_last s) (f_bias s) (f_pre s) PIdle (f_out s))
          | Some (pu, _) => Ok (go s (if fc_stereo c then PStereo u sw else PChosen u sw (from_pcl pu)))
          end
      | _ => Ok s
      end
  | IPoll => cloud_poll c s
  end.
Fixpoint fe_run (c : fcfg) (s : fe) (l : list fin) : res fe :=
  match l with [] => Ok s | i :: l' => rbind (fe_step c s i) (fun s' => fe_run c s' l') end.
