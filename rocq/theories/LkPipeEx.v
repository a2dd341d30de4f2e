(* Without registration the optimised odometry can reach the front end while it deskews. *)
From Coq Require Import List.
From Verif Require Import Base ImuModel ImuSpec ImuProofs FeModel FeSpec FeBaro FeProofs FeImu FeLive FeExamples.
From Verif Require Import RegModel RegSpec RegProofs RegMore.
From Verif Require Import GmModel GmReady GmExamples GmReadyEx BeModel BeSpec BeProofs BeAbs BeInv BeSect BeHealthy BeLive BeExamples LpModel LpSpec LpProofs LpInv LpLive LpExamples LkPipe.
Import ListNotations.
Local Open Scope Z_scope.

Definition script_disturbed : list ins :=
  [Sen (IImu 90000 1); Sen (ICloud 100 50000); Sen (IImu 125000 2); Sen (ICloud 200 50000); Sen (IImu 155000 3); Pol; Snd TInit 100000; Job TInit; Odo; Pol; Pol; Pol;
   Sen (IImu 190000 4); Sen (IImu 235000 5); Sen (ICloud 300 50000); Pol; Sen (IImu 255000 6); Pol; Snd TImu 200000; Job TImu].
Theorem skew_disturbed : exists bp al_s al_m fc c s2m p s u sw new, matching fc c /\ c_reg c = false /\ lreach bp al_s al_m fc c s2m p s /\ f_pc (l_f s) = PSkew u sw new /\
  exists s', lstep bp al_s al_m fc c s2m s LOdom = Some (Ok s').
Proof.
  assert (M : matching cfg_lidar cfg_open) by (unfold matching; conj; reflexivity).
  assert (X : match play al0 al1 cfg_lidar cfg_open true (start cfg_open) script_disturbed with
    | Some (p, s) => match f_pc (l_f s), lstep bp0 al0 al1 cfg_lidar cfg_open true s LOdom with PSkew _ _ _, Some (Ok _) => True | _, _ => False end | None => False end) by (vm_compute; exact I).
  destruct (play al0 al1 cfg_lidar cfg_open true (start cfg_open) script_disturbed) as [[p s]|] eqn:E; [|destruct X]. pose proof (play_reach _ _ _ _ _ _ _ _ E) as R. clear E.
  destruct (f_pc (l_f s)) as [| | | |u sw new|] eqn:Ep; try (destruct X; fail). destruct (lstep bp0 al0 al1 cfg_lidar cfg_open true s LOdom) as [[s'| |]|] eqn:Es; try (destruct X; fail).
  exists bp0, al0, al1, cfg_lidar, cfg_open, true, p, s, u, sw, new. split; [exact M|]. split; [reflexivity|]. split; [exact R|]. split; [exact Ep|]. exists s'. exact Es.
Qed.
(* with registration: a cloud being deskewed *)
Definition script_skew : list ins :=
  [Sen (IImu 90000 1); Sen (ICloud 100 50000); Sen (IImu 125000 2); Sen (ICloud 200 50000); Sen (IImu 155000 3); Pol;
   Snd TInit 100000; Job TInit; Odo; Pol; Pol; Scn 1; RS; RS; Mp; RM; RM; Pol;
   Sen (IImu 190000 4); Sen (IImu 235000 5); Sen (ICloud 300 50000); Pol; Snd TImu 200000; Job TImu; RM; RM; RM; Sen (IImu 265000 6); Pol].
Example skew_met : exists p s u sw new, matching cfg_lidar cfg_reg /\ c_reg cfg_reg = true /\ lreach bp0 al0 al1 cfg_lidar cfg_reg true p s /\ f_pc (l_f s) = PSkew u sw new.
Proof.
  assert (X : match play al0 al1 cfg_lidar cfg_reg true (start cfg_reg) script_skew with
    | Some (p, s) => match f_pc (l_f s) with PSkew _ _ _ => True | _ => False end | None => False end) by (vm_compute; exact I).
  destruct (play al0 al1 cfg_lidar cfg_reg true (start cfg_reg) script_skew) as [[p s]|] eqn:E; [|destruct X]. pose proof (play_reach _ _ _ _ _ _ _ _ E) as R. clear E.
  destruct (f_pc (l_f s)) as [| | | |u sw new|] eqn:Ep; try (destruct X; fail). exists p, s, u, sw, new. split; [exact reg_matching|]. split; [reflexivity|]. split; [exact R|exact Ep].
Qed.
