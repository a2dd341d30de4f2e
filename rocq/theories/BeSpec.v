(* Specification vocabulary for the back end: uninterrupted execution of critical sections. *)
From Verif Require Import Base GmModel BeModel.

Section Spec.
Variable bp : Z -> Z -> Z -> Z -> Z.
Variable c : config.

(* what is left of a section executed to its end without interruption *)
Inductive result := ROut (o : outcome) | RThrow.
Fixpoint prun (p : prog) (g : igm) (log : list gmop) (ev : list event)
  : igm * list gmop * list event * result :=
  match p with
  | PRet o => (g, log, ev, ROut o)
  | PThrow => (g, log, ev, RThrow)
  | PCall op k =>
      match gm_step bp g op with
      | (g', Ok _) => prun k g' (log ++ [op]) ev
      | (g', _) => (g', log ++ [op], ev, RThrow)
      end
  | PRead k => prun (k g) g log ev
  | PEmit e k => prun k g log (ev ++ [e])
  end.

Definition complete (s : sys) (t : tid) (m : msg) (p : prog) : sys :=
  let '(g, log, ev, r) := prun p (y_g s) (y_log s) (y_ev s) in
  let s' := mkSys g log ev (y_mutex s) (y_ctl s) (y_q s) (y_ok s) in
  match r with ROut o => finish s' t m o | RThrow => throws s' t m end.

(* the system in which a thread holding the mutex executes its whole section in one step *)
Inductive sact := SDeliver (m : msg) | SDispatch (t : tid) | SLock (t : tid) | SSection (t : tid) | SShutdown.

Definition ser_step (s : sys) (a : sact) : option sys :=
  match a with
  | SDeliver m => sys_step bp c s (ADeliver m)
  | SDispatch t => sys_step bp c s (ADispatch t)
  | SLock t => sys_step bp c s (ALock t)
  | SShutdown => sys_step bp c s AShutdown
  | SSection t =>
      match pget (y_ctl s) t with
      | CHold m l => Some (complete s t m (section c (y_ok s) m l))
      | _ => None
      end
  end.

Fixpoint ser_run (s : sys) (acts : list sact) : option sys :=
  match acts with
  | [] => Some s
  | a :: acts' => match ser_step s a with Some s' => ser_run s' acts' | None => None end
  end.

Definition ser_reachable (s : sys) : Prop := exists acts, ser_run (sys_init bp c) acts = Some s.

(* the state once the section in progress, if any, has been completed *)
Definition settle (s : sys) : sys :=
  match y_mutex s with
  | Some t => match pget (y_ctl s) t with CRun m p => complete s t m p | _ => s end
  | None => s
  end.
End Spec.
