(* Fair executions of the pipeline on the threads of one node. *)
From Verif Require Import Base ImuModel FeModel FeSpec RegModel RegSpec GmModel GmReady BeModel BeSpec BeInv BeHealthy BeLive BeFair LpModel LpSpec LpFairSpec PlModel PlSpec.

Section Spec.
Variable bp : Z -> Z -> Z -> Z -> Z.
Variable al_s al_m : Z -> Z -> Z -> Z.
Variable fc : fcfg.
Variable c : config.
Variable s2m : bool.

(* able to move: a callback that is to begin needs a free thread *)
Definition pready (g : agent) (p : past) (s : loop) : Prop := exists a s', does g (Some a) /\ fine fc p s a /\ pstep bp al_s al_m fc c s2m s a = Some (Ok s').

Record pexecution (p : nat -> past) (x : nat -> loop) (acts : nat -> option lact) : Prop := {
  pe_start : preach bp al_s al_m fc c s2m (p O) (x O);
  pe_step : forall n, match acts n with
    | None => x (S n) = x n /\ p (S n) = p n
    | Some a => fine fc (p n) (x n) a /\ pstep bp al_s al_m fc c s2m (x n) a = Some (Ok (x (S n))) /\ p (S n) = note (x n) a (p n)
    end }.

(* who keeps becoming able to move for as long as they have not moved eventually moves: nothing is asked for a callback that finds no free thread *)
Definition pfair (p : nat -> past) (x : nat -> loop) (acts : nat -> option lact) : Prop :=
  forall g n, (forall m, (n <= m)%nat -> exists m', (m <= m')%nat /\ (pready g (p m') (x m') \/ exists j, (n <= j < m')%nat /\ does g (acts j))) ->
  exists m, (n <= m)%nat /\ does g (acts m).
End Spec.
