(* What is asked of the number of threads. *)
From Verif Require Import Base ImuModel FeModel FeSpec RegModel RegSpec GmModel GmReady BeModel BeSpec BeInv BeHealthy BeLive LpModel LpSpec PlModel.

Section Spec.
Variable bp : Z -> Z -> Z -> Z -> Z.
Variable al_s al_m : Z -> Z -> Z -> Z.
Variable fc : fcfg.
Variable c : config.
Variable s2m : bool.

(* states of the node *)
Inductive preach : past -> loop -> Prop :=
| pr_init : preach (mkPast [] [] []) (loop_init bp c)
| pr_step p s a s' : preach p s -> fine fc p s a -> pstep bp al_s al_m fc c s2m s a = Some (Ok s') -> preach (note s a p) s'.
Inductive plater (p : past) (s : loop) : past -> loop -> Prop :=
| pl_here : plater p s p s
| pl_step p' s' a s2 : plater p s p' s' -> fine fc p' s' a -> pstep bp al_s al_m fc c s2m s' a = Some (Ok s2) -> plater p s (note s' a p') s2.

(* callbacks that can all wait at once: point clouds, IMU data or barometer in the back end (when one of the two
   waits, the other does not), local maps (subscribed to even without s2m/enabled, registration-inl.hpp 82), stereo
   features *)
Definition sleepers : nat := 3 + held (c_stereo c).

(* nothing moves any more: every callback that runs only polls, every message a running callback has published is
   queued, and no callback can begin, for want of a message or for want of a thread *)
Record pool_rest (s : loop) : Prop := {
  z_poll : fe_step fc (l_f s) IPoll = Ok (l_f s);
  z_send : forall t, subscribed c t = true -> t <> TStereo -> pget (l_in s) t = List.length (posted s t);
  z_start : forall a, starts a = true -> match a with LSensor _ | LSend _ => False | _ => True end -> pstep bp al_s al_m fc c s2m s a = None;
  z_s : r_s Z Z (l_r s) = SIdle Z Z;
  z_m : s2m = true -> r_own Z Z (l_r s) = None /\
        (r_m Z Z (l_r s) = MIdle Z Z \/ exists m, (r_m Z Z (l_r s) = MWant Z Z m \/ r_m Z Z (l_r s) = MSleep Z Z m) /\ (r_qc Z Z (l_r s) = [] \/ r_qt Z Z (l_r s) = []));
  z_mutex : y_mutex (l_b s) = None;
  z_wait : forall t m l, pget (y_ctl (l_b s)) t = CWant m l ->
     exists l', prun bp (section c (y_ok (l_b s)) m l) (y_g (l_b s)) (y_log (l_b s)) (y_ev (l_b s)) = (y_g (l_b s), y_log (l_b s), y_ev (l_b s), ROut (OSleep l')) }.
End Spec.
