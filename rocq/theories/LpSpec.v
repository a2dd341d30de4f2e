(* What the pipeline needs from its sensors and its numerical work, and when it is at rest. *)
From Verif Require Import Base ImuModel FeModel FeSpec RegModel RegSpec GmModel GmReady BeModel BeSpec BeInv BeHealthy BeLive LpModel.

(* histories: what went into the front end, what reached the back end, what registration did *)
Record past := mkPast { h_f : list fin; h_b : list msg; h_r : list (lab Z Z) }.

(* numerical work behind a message succeeds; says nothing about stamps *)
Definition numerics_ok (m : msg) : Prop :=
  match m with
  | MInit _ _ _ _ sp sv nz n => sp = true /\ sv = true /\ nz = true /\ good n
  | MImu _ _ ne pr fi n => ne = true /\ pr = true /\ fi = true /\ good n
  | MReg _ _ va ze n => va = false /\ ze = false /\ good n
  | MStereo _ f ba _ n => ba = true /\ good n /\ exists fm, f = Some fm /\ msorted fm /\ forall id, mget id fm <> None -> 0 <= id < 2 ^ 56
  | MBaro _ _ vp nz n => vp = true /\ nz = true /\ good n
  end.

(* sensors: stamps increase and are positive; IMU data start before the first cloud, fall between any two states, are
   there when a state is chosen, and none is stamped exactly at an end of a sweep; the barometer starts before
   the first state. Stereo features: ids tracked without interruption. Nothing is said about odometry,
   transforms, registration results or the order in which messages arrive *)
Definition fine (fc : fcfg) (p : past) (s : loop) (a : lact) : Prop :=
  match a with
  | LSensor i => calm fc (h_f p) (l_f s) i /\ match i with ICloud u _ => 0 < u | _ => True end
  | LPoll => calm fc (h_f p) (l_f s) IPoll
  | LSend m => numerics_ok m /\
      match m with
      | MStereo _ _ _ _ _ => contiguous (frames (h_b p) ++ frames [m])
      | MImu _ _ _ _ _ _ => len (on TImu (h_b p)) + 1 < int_max
      | _ => True
      end
  | _ => True
  end.

(* the label a move gives the components *)
Definition note (s : loop) (a : lact) (p : past) : past :=
  match a with
  | LSensor i => mkPast (h_f p ++ [i]) (h_b p) (h_r p)
  | LPoll => mkPast (h_f p ++ [IPoll]) (h_b p) (h_r p)
  | LOdom => match nth_error (odoms (y_ev (l_b s))) (l_odo s) with Some (_, t) => mkPast (h_f p ++ [IOdom t]) (h_b p) (h_r p) | None => p end
  | LSend m => mkPast (h_f p) (h_b p ++ [m]) (h_r p)
  | LScan g => match nth_error (cloud_stamps (l_f s)) (l_scn s) with Some t => mkPast (h_f p) (h_b p) (h_r p ++ [InS Z Z t g]) | None => p end
  | LMap => match nth_error (cloud_stamps (l_f s)) (l_map s) with Some t => mkPast (h_f p) (h_b p) (h_r p ++ [InM Z Z t]) | None => p end
  | LReg l => mkPast (h_f p) (h_b p) (h_r p ++ [l])
  | LBack _ => p
  end.

Section Spec.
Variable bp : Z -> Z -> Z -> Z -> Z.
Variable al_s al_m : Z -> Z -> Z -> Z.
Variable fc : fcfg.
Variable c : config.
Variable s2m : bool.

(* the components read the same parameters (optimisation/factors/...), some sensor makes the back end optimise, and
   it keeps all states *)
Definition matching : Prop := fc_stereo fc = c_stereo c /\ fc_baro fc = c_baro c /\ working c = true /\ c_marg c = None.

(* states of the pipeline after any interleaving of its parts *)
Inductive lreach : past -> loop -> Prop :=
| lr_init : lreach (mkPast [] [] []) (loop_init bp c)
| lr_step p s a s' : lreach p s -> fine fc p s a -> lstep bp al_s al_m fc c s2m s a = Some (Ok s') -> lreach (note s a p) s'.

(* continuations *)
Inductive later (p : past) (s : loop) : past -> loop -> Prop :=
| lt_here : later p s p s
| lt_step p' s' a s2 : later p s p' s' -> fine fc p' s' a -> lstep bp al_s al_m fc c s2m s' a = Some (Ok s2) -> later p s (note s' a p') s2.

(* stereo features have reached the back end up to the newest cloud *)
Definition features_in (p : past) (s : loop) : Prop :=
  c_stereo c = true -> forall t, In t (cloud_stamps (l_f s)) -> exists m, In m (on TStereo (h_b p)) /\ t <= stamp m.

(* nothing is on its way, and every callback is idle or only polls *)
Record at_rest (s : loop) : Prop := {
  q_poll : fe_step fc (l_f s) IPoll = Ok (l_f s);
  q_odo : l_odo s = List.length (odoms (y_ev (l_b s)));
  q_send : forall t, subscribed c t = true -> t <> TStereo -> pget (l_in s) t = List.length (posted s t);
  q_scan : forall t, nth_error (cloud_stamps (l_f s)) (l_scn s) = Some t -> ~ In t (trans (y_ev (l_b s)));
  q_s : r_s Z Z (l_r s) = SIdle Z Z;
  q_m : s2m = true -> r_own Z Z (l_r s) = None /\
        ((r_m Z Z (l_r s) = MIdle Z Z /\ (List.length (cloud_stamps (l_f s)) <= l_map s \/ List.length (odoms (y_ev (l_b s))) <= l_map s)%nat)
         \/ (exists m, (r_m Z Z (l_r s) = MWant Z Z m \/ r_m Z Z (l_r s) = MSleep Z Z m) /\ (r_qc Z Z (l_r s) = [] \/ r_qt Z Z (l_r s) = [])));
  q_back : quiescent bp c (l_b s) }.
End Spec.
