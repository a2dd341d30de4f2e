(* Model of the registration module, serpent/include/serpent/front_end/lidar/registration-inl.hpp:
   the two callbacks and the queues between them, as an interleaving of two threads with a mutex.
   roscpp runs the callbacks of one subscription one at a time and the synchroniser calls s2s_callback
   under its own lock, so each callback is one sequential thread.
   Clouds, maps ([C]) and transforms ([T]) are abstract; [al_s cur prev guess] and [al_m cur map guess]
   are the results of the two alignments (external registration code).                              *)
From Verif Require Import Base.

Section Reg.
  Variables C T : Type.
  Variable al_s : C -> C -> T -> T.   (* s2s->align, registration-inl.hpp:263-270          *)
  Variable al_m : C -> C -> T -> T.   (* s2m->align, registration-inl.hpp:332-341          *)

  Inductive who := ThS | ThM.

  (* Where s2s_callback is (registration-inl.hpp:228-315)                                           *)
  Inductive spc :=
  | SIdle
  | SWork (c : C) (g : T)      (* entered with the cloud and the initial guess                      *)
  | SWant (c : C) (r : T)      (* aligned; about to construct the lock_guard (303)                  *)
  | SPushC (c : C) (r : T)     (* lock held, before emplace_back of the cloud (304)                 *)
  | SPushT (c : C) (r : T)     (* lock held, before emplace_back of the transform (305)             *)
  | SFree (c : C)              (* before the end of the lock_guard's scope (306)                    *)
  | SEnd (c : C).              (* before previous_pointcloud = current_pointcloud (314)             *)

  (* Where s2m_callback is (registration-inl.hpp:318-377)                                           *)
  Inductive mpc :=
  | MIdle
  | MWant (m : C)              (* protected_sleep: before mutex.lock() (utilities.cpp:78, 83)       *)
  | MTest (m : C)              (* lock held, before the loop condition (utilities.cpp:80)           *)
  | MSleep (m : C)             (* asleep without the lock (utilities.cpp:81-82)                     *)
  | MRet (m : C)               (* left the loop with the lock, before return ros::ok() (88)         *)
  | MPopC (m : C)              (* registration-inl.hpp:326-327                                      *)
  | MPopT (m c : C)            (* registration-inl.hpp:328-329                                      *)
  | MFree (m c : C) (r : T)    (* registration-inl.hpp:330                                          *)
  | MWork (m c : C) (r : T).   (* registration-inl.hpp:332-377                                      *)

  Record rst := Rst {
    r_ok : bool;               (* ros::ok()                                                         *)
    r_own : option who;        (* owner of s2s_mutex                                                *)
    r_qc : list C;             (* s2m_pointclouds                                                   *)
    r_qt : list T;             (* s2s_registrations                                                 *)
    r_prev : option C;         (* previous_pointcloud                                               *)
    r_s : spc;
    r_m : mpc;
    r_pub : list (C * T)       (* refined transforms published so far, with the cloud they belong to *)
  }.

  Definition rinit : rst := Rst true None [] [] None SIdle MIdle [].

  Inductive lab := InS (c : C) (g : T) | InM (m : C) | RunS | RunM | Down.

  (* One step; None: not enabled (callback busy, lock taken).  [s2m] is the parameter s2m/enabled.   *)
  Definition rstep (s2m : bool) (l : lab) (st : rst) : option (res rst) :=
    let 'Rst ok own qc qt pv s m pb := st in
    match l with
    | Down => Some (Ok (Rst false own qc qt pv s m pb))
    | InS c g => match s with SIdle => Some (Ok (Rst ok own qc qt pv (SWork c g) m pb)) | _ => None end
    | InM x => match m with MIdle => Some (Ok (Rst ok own qc qt pv s (MWant x) pb)) | _ => None end
    | RunS =>
        match s with
        | SIdle => None
        | SWork c g =>
            match pv with
            | None => Some (Ok (Rst ok own qc qt pv (SEnd c) m pb))              (* 231: first scan *)
            | Some p =>
                if s2m then Some (Ok (Rst ok own qc qt pv (SWant c (al_s c p g)) m pb))
                else Some (Ok (Rst ok own qc qt pv (SEnd c) m (pb ++ [(c, al_s c p g)])))  (* 307-311 *)
            end
        | SWant c r => match own with None => Some (Ok (Rst ok (Some ThS) qc qt pv (SPushC c r) m pb)) | _ => None end
        | SPushC c r => Some (Ok (Rst ok own (qc ++ [c]) qt pv (SPushT c r) m pb))
        | SPushT c r => Some (Ok (Rst ok own qc (qt ++ [r]) pv (SFree c) m pb))
        | SFree c => Some (Ok (Rst ok None qc qt pv (SEnd c) m pb))
        | SEnd c => Some (Ok (Rst ok own qc qt (Some c) SIdle m pb))
        end
    | RunM =>
        match m with
        | MIdle => None
        | MWant x => match own with None => Some (Ok (Rst ok (Some ThM) qc qt pv s (MTest x) pb)) | _ => None end
        | MTest x =>
            if ok && (match qt with [] => true | _ => false end || match qc with [] => true | _ => false end)
            then Some (Ok (Rst ok None qc qt pv s (MSleep x) pb))
            else Some (Ok (Rst ok own qc qt pv s (MRet x) pb))
        | MSleep x => Some (Ok (Rst ok own qc qt pv s (MWant x) pb))
        | MRet x => if ok then Some (Ok (Rst ok own qc qt pv s (MPopC x) pb))
                    else Some (Ok (Rst ok own qc qt pv s MIdle pb))                (* 321-322: the lock stays *)
        | MPopC x => match qc with
                     | [] => Some UB                     (* front() of an empty deque *)
                     | c :: qc' => Some (Ok (Rst ok own qc' qt pv s (MPopT x c) pb))
                     end
        | MPopT x c => match qt with
                       | [] => Some UB
                       | r :: qt' => Some (Ok (Rst ok own qc qt' pv s (MFree x c r) pb))
                       end
        | MFree x c r => Some (Ok (Rst ok None qc qt pv s (MWork x c r) pb))
        | MWork x c r => Some (Ok (Rst ok own qc qt pv s MIdle (pb ++ [(c, al_m c x r)])))
        end
    end.

  (* Executions: sequences of enabled steps. *)
  Fixpoint rexec (s2m : bool) (ls : list lab) (st : rst) : option (res rst) :=
    match ls with
    | [] => Some (Ok st)
    | l :: ls' => match rstep s2m l st with
                  | Some (Ok st') => rexec s2m ls' st'
                  | Some r => Some r
                  | None => None
                  end
    end.
End Reg.
