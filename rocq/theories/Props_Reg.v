(* Properties C38, C65, C66 (scan registration). Proofs in RegProofs.v and RegMore.v; concrete cases in RegExamples.v. *)
From Verif Require Import Base RegModel RegSpec RegProofs RegMore RegExamples.

(* C38 *)
Theorem C38_no_ub :
  forall (C T : Type) (al_s al_m : C -> C -> T -> T) (ls : list (lab C T)) (r : res (rst C T)),
    rexec C T al_s al_m true ls (rinit C T) = Some r -> exists st : rst C T, r = Ok st.
Proof. exact s2m_no_ub. Qed.
Theorem C38_fifo :
  forall (C T : Type) (al_s al_m : C -> C -> T -> T) (ls : list (lab C T)) (st : rst C T),
    rexec C T al_s al_m true ls (rinit C T) = Some (Ok st) ->
    r_pub C T st = firstn (Datatypes.length (r_pub C T st)) (s2m_all C T al_s al_m (scans C T ls) (maps C T ls)).
Proof. exact s2m_fifo. Qed.
Theorem C38_nth :
  forall (C T : Type) (al_s al_m : C -> C -> T -> T) (ls : list (lab C T)) (st : rst C T) (n : nat) (c : C) (t : T),
    rexec C T al_s al_m true ls (rinit C T) = Some (Ok st) ->
    nth_error (r_pub C T st) n = Some (c, t) ->
    exists (p : C) (h g : T) (m : C),
      nth_error (scans C T ls) n = Some (p, h) /\
      nth_error (scans C T ls) (S n) = Some (c, g) /\ nth_error (maps C T ls) n = Some m /\ t = al_m c m (al_s c p g).
Proof. exact s2m_nth. Qed.
Theorem C38_queues :
  forall (C T : Type) (al_s al_m : C -> C -> T -> T) (ls : list (lab C T)) (st : rst C T),
    rexec C T al_s al_m true ls (rinit C T) = Some (Ok st) ->
    r_own C T st = None ->
    Datatypes.length (r_qc C T st) = Datatypes.length (r_qt C T st) /\
    (exists taken pend : list (C * T),
       s2s_all C T al_s (scans C T ls) = taken ++ combine (r_qc C T st) (r_qt C T st) ++ pend /\
       (Datatypes.length (r_pub C T st) <= Datatypes.length taken <= Datatypes.length (r_pub C T st) + 1)%nat /\
       (Datatypes.length pend <= 1)%nat /\
       (r_s C T st = SIdle C T -> pend = []) /\ (r_m C T st = MIdle C T -> Datatypes.length taken = Datatypes.length (r_pub C T st))).
Proof. exact s2m_queues. Qed.
Theorem C38_idle_done :
  forall (C T : Type) (al_s al_m : C -> C -> T -> T) (ls : list (lab C T)) (st : rst C T),
    rexec C T al_s al_m true ls (rinit C T) = Some (Ok st) ->
    r_ok C T st = true ->
    r_m C T st = MIdle C T ->
    Datatypes.length (r_pub C T st) = Datatypes.length (maps C T ls) /\ r_pub C T st = s2m_all C T al_s al_m (scans C T ls) (maps C T ls).
Proof. exact s2m_idle_done. Qed.
Theorem C38_progress :
  forall (C T : Type) (al_s al_m : C -> C -> T -> T) (ls : list (lab C T)) (st : rst C T),
    rexec C T al_s al_m true ls (rinit C T) = Some (Ok st) ->
    r_ok C T st = true ->
    r_s C T st <> SIdle C T \/ r_m C T st <> MIdle C T ->
    exists l : lab C T, (l = RunS C T \/ l = RunM C T) /\ (exists st' : rst C T, rstep C T al_s al_m true l st = Some (Ok st')).
Proof. exact s2m_progress. Qed.
Theorem C38_publishes :
  forall (C T : Type) (al_s al_m : C -> C -> T -> T) (ls : list (lab C T)) (st : rst C T),
    rexec C T al_s al_m true ls (rinit C T) = Some (Ok st) ->
    r_ok C T st = true ->
    r_s C T st = SIdle C T ->
    r_m C T st <> MIdle C T ->
    (Datatypes.length (r_pub C T st) < Datatypes.length (s2s_all C T al_s (scans C T ls)))%nat ->
    exists (st' : rst C T) (x : C * T),
      rexec C T al_s al_m true (repeat (RunM C T) (m_steps C T (r_m C T st))) st = Some (Ok st') /\
      r_m C T st' = MIdle C T /\ r_pub C T st' = r_pub C T st ++ [x].
Proof. exact s2m_publishes. Qed.

(* C65 *)
Theorem C65_scan_pairs :
  forall (C T : Type) (al_s : C -> C -> T -> T) (l : list (C * T)) (n : nat) (c : C) (t : T),
    nth_error (s2s_all C T al_s l) n = Some (c, t) ->
    exists (p : C) (h g : T), nth_error l n = Some (p, h) /\ nth_error l (S n) = Some (c, g) /\ t = al_s c p g.
Proof. exact s2s_nth. Qed.
Theorem C65_same_frame :
  forall (C T : Type) (al_s al_m : C -> C -> T -> T) (stamp : C -> Z) (ls : list (lab C T)) (st : rst C T),
    rexec C T al_s al_m true ls (rinit C T) = Some (Ok st) ->
    (forall (n : nat) (m p : C) (h : T), nth_error (maps C T ls) n = Some m -> nth_error (scans C T ls) n = Some (p, h) -> stamp m = stamp p) ->
    forall (n : nat) (c : C) (t : T),
    nth_error (r_pub C T st) n = Some (c, t) ->
    exists (p : C) (h g : T) (m : C),
      nth_error (scans C T ls) n = Some (p, h) /\
      nth_error (scans C T ls) (S n) = Some (c, g) /\ In m (maps C T ls) /\ stamp m = stamp p /\ t = al_m c m (al_s c p g).
Proof. exact s2m_same_frame. Qed.
Theorem C65_lost_map_refuted :
  exists (ls : list (lab Z tr)) (st : rst Z tr),
      ex_exec true ls (rinit Z tr) = Some (Ok st) /\
      maps Z tr ls = [2] /\ map fst (scans Z tr ls) = [1; 2; 3] /\ r_pub Z tr st = [(2, S2m 2 2 (S2s 2 1 (Guess 2)))].
Proof. exact lost_map_refuted. Qed.

(* C66 *)
Theorem C66_scan_to_scan_only :
  forall (C T : Type) (al_s al_m : C -> C -> T -> T) (ls : list (lab C T)) (st : rst C T),
    rexec C T al_s al_m false ls (rinit C T) = Some (Ok st) ->
    r_pub C T st = firstn (Datatypes.length (r_pub C T st)) (s2s_all C T al_s (scans C T ls)) /\
    (r_s C T st = SIdle C T -> r_pub C T st = s2s_all C T al_s (scans C T ls)).
Proof. exact s2s_only. Qed.
Theorem C66_off_blocks_worker_refuted :
  forall (C T : Type) (al_s al_m : C -> C -> T -> T) (ls : list (lab C T)) (st : rst C T),
    rexec C T al_s al_m false ls (rinit C T) = Some (Ok st) ->
    r_ok C T st = true ->
    maps C T ls <> [] ->
    Datatypes.length (maps C T ls) = 1%nat /\
    r_m C T st <> MIdle C T /\
    (forall (ls' : list (lab C T)) (st' : rst C T),
     rexec C T al_s al_m false ls' st = Some (Ok st') -> r_ok C T st' = true -> r_m C T st' <> MIdle C T /\ maps C T ls' = []).
Proof. exact s2m_off_blocks_worker_refuted. Qed.
Theorem C66_shutdown_refuted :
  exists (ls : list (lab Z tr)) (st : rst Z tr),
      ex_exec true ls (rinit Z tr) = Some (Ok st) /\
      r_m Z tr st = MIdle Z tr /\
      r_own Z tr st = Some ThM /\
      (forall (ls' : list (lab Z tr)) (st' : rst Z tr), ex_exec true ls' st = Some (Ok st') -> r_own Z tr st' = Some ThM).
Proof. exact shutdown_keeps_lock_refuted. Qed.

Print Assumptions C38_no_ub.
Print Assumptions C38_fifo.
Print Assumptions C38_nth.
Print Assumptions C38_queues.
Print Assumptions C38_idle_done.
Print Assumptions C38_progress.
Print Assumptions C38_publishes.
Print Assumptions C65_scan_pairs.
Print Assumptions C65_same_frame.
Print Assumptions C65_lost_map_refuted.
Print Assumptions C66_scan_to_scan_only.
Print Assumptions C66_off_blocks_worker_refuted.
Print Assumptions C66_shutdown_refuted.
