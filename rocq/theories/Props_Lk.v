(* Properties C116, C117: the threads and mutexes of the serpent node. Proofs in LkProofs.v, LkNode.v, LkPipe.v; cases in LkExamples.v, LkPipeEx.v. *)
From Coq Require Import String List Arith Relations ZArith.
Import ListNotations.
From Verif Require Import Base ImuModel FeModel RegModel GmModel BeModel LpModel LpSpec LkModel LkSpec LkProofs LkNode LkPipe LkExamples LkPipeEx.
Local Open Scope nat_scope.
Local Open Scope string_scope.

(* C116 *)
Theorem C116_guarded_members :
  forall (w : world) (t : nat) (th : thread) (f : string) (b : bool) (l : nat) (m : string) (fs : list string),
    reach node anything w ->
    w_thr w t = Some th ->
    accesses th f b l -> In (m, fs) protected_by -> In f fs -> w_own w m = Some t \/ b = false /\ In f skew_data /\ In deskewing (t_in th).
Proof. exact (@node_guards). Qed.
Theorem C116_only_races :
  forall (w : world) (c1 l1 c2 l2 : nat) (f : string),
    reach node anything w -> race w c1 l1 c2 l2 f -> skew_race c1 l1 c2 l2 f \/ skew_race c2 l2 c1 l1 f.
Proof. exact (@node_races). Qed.
Theorem C116_race_free :
  forall (w : world) (c1 l1 c2 l2 : nat) (f : string),
    reach node (kept_out deskewing odometry_cbs pre_m) w -> w_up w = true -> ~ race w c1 l1 c2 l2 f.
Proof. exact (@node_race_free). Qed.
Theorem C116_race_refuted :
  exists w : world, reach node anything w /\ w_up w = true /\ race w 1 274 pointcloud_cb 480 "fe.world_state".
Proof. exact (@race_possible). Qed.
Theorem C116_no_odometry_while_deskewing :
  forall (bp : Z -> Z -> Z -> Z -> Z) (al_s al_m : Z -> Z -> Z -> Z) (fc : fcfg) (c : config) (s2m : bool) (p : past) (s : loop) (u sw new : Z),
    matching fc c ->
    c_reg c = true -> lreach bp al_s al_m fc c s2m p s -> f_pc (l_f s) = PSkew u sw new -> lstep bp al_s al_m fc c s2m s LOdom = None.
Proof. exact (@skew_undisturbed). Qed.
Theorem C116_odometry_while_deskewing_refuted :
  exists (bp : Z -> Z -> Z -> Z -> Z) (al_s al_m : Z -> Z -> Z -> Z) (fc : fcfg) (c : config) (s2m : bool) (p : past) 
    (s : loop) (u sw new : Z),
      matching fc c /\
      c_reg c = false /\
      lreach bp al_s al_m fc c s2m p s /\ f_pc (l_f s) = PSkew u sw new /\ (exists s' : loop, lstep bp al_s al_m fc c s2m s LOdom = Some (Ok s')).
Proof. exact (@skew_disturbed). Qed.

(* C117 *)
Theorem C117_proper_use :
  forall w : world, reach node anything w -> w_up w = true -> proper_use w.
Proof. exact (@node_proper). Qed.
Theorem C117_unlock_by_owner :
  forall (w : world) (t : nat) (th : thread) (m : string) (k : list stmt),
    reach node anything w -> w_thr w t = Some th -> t_k th = Unlock m :: k -> w_own w m = Some t.
Proof. exact (@node_unlock). Qed.
Theorem C117_no_mutex_left :
  forall (w : world) (t : nat) (th : thread) (m : string),
    reach node anything w -> w_up w = true -> w_thr w t = Some th -> t_k th = [] -> w_own w m <> Some t.
Proof. exact (@node_ends). Qed.
Theorem C117_no_mutex_while_sleeping :
  forall (w : world) (t : nat) (th : thread) (k : list stmt) (m : string),
    reach node anything w -> w_up w = true -> w_thr w t = Some th -> t_k th = Sleep :: k -> w_own w m <> Some t.
Proof. exact (@node_sleeping). Qed.
Theorem C117_no_deadlock :
  forall (w : world) (t : nat) (th : thread),
    reach node anything w -> w_up w = true -> w_thr w t = Some th -> exists t' : nat, clos_refl_trans nat (waits w) t t' /\ can_step node w t'.
Proof. exact (@node_no_deadlock). Qed.
Theorem C117_shutdown_leaves_locked :
  exists (w : world) (t : nat) (m : string), reach node anything w /\ w_up w = false /\ w_thr w t = None /\ w_own w m = Some t.
Proof. exact (@shutdown_leaves_locked). Qed.

Print Assumptions C116_guarded_members.
Print Assumptions C116_only_races.
Print Assumptions C116_race_free.
Print Assumptions C116_race_refuted.
Print Assumptions C116_no_odometry_while_deskewing.
Print Assumptions C116_odometry_while_deskewing_refuted.
Print Assumptions C117_proper_use.
Print Assumptions C117_unlock_by_owner.
Print Assumptions C117_no_mutex_left.
Print Assumptions C117_no_mutex_while_sleeping.
Print Assumptions C117_no_deadlock.
Print Assumptions C117_shutdown_leaves_locked.
