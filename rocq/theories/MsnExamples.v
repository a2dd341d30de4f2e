(* The hypotheses of the theorems on launching are met; what goes wrong without them. *)
From Coq Require Import ZArith QArith List Bool String.
From Verif Require Import Base CfgModel CfgProofs WrModel WrSpec WrProofs WrTheorems WrExamples MsnData MsnModel MsnSpec MsnProofs MsnMore.
From Verif Require BfModel BfExamples.
Import ListNotations.
Open Scope string_scope.
Open Scope list_scope.

Example huber_any : huber_accepted any_estimator. Proof. intros k s _. reflexivity. Qed.
(* a server with leftovers, on which the mission before was another one *)
Definition leftovers : server := mkServer (store (store (fun _ => None) "gravity" (VInt 0)) "threads" (VStr "many")) BfModel.XInvalid.
Example used_twice : used snowboard (launch snowboard snowboard_tunnel 8 leftovers).
Proof. apply Again; [apply Fresh; reflexivity | cbn; tauto]. Qed.
Example starts_with_stereo : can (single BfExamples.no_tf any_estimator
  (switched true true true (sv_flat (launch snowboard snowboard_ice_rink 8 (launch snowboard snowboard_tunnel 8 leftovers))))
  (sv_frames (launch snowboard snowboard_ice_rink 8 (launch snowboard snowboard_tunnel 8 leftovers)))).
Proof. apply platform_starts; [exact huber_any | cbn; tauto | cbn; tauto | discriminate | exact used_twice | intros _; split; reflexivity]. Qed.
Example gravity_replaced : sv_flat (launch snowboard snowboard_tunnel 8 leftovers) "gravity" = Some (VDouble (489#50)). Proof. reflexivity. Qed.
Example threads_replaced : sv_flat (launch snowboard snowboard_tunnel 8 leftovers) "threads" = Some (VInt 8). Proof. reflexivity. Qed.
(* a window of one number, left by hand below the key the tracker reads: with stereo the node does not start, and nothing in the files would replace it *)
Definition one_number : params := store (fun _ => None) "stereo_tracking/sparse_optical_flow/win_size" (VList [VInt 21]).
Theorem flow_refuted : exists L, ~ flow_unset L /\ forall pl m n, In pl platforms -> In m (pl_missions pl) ->
  ~ can (single BfExamples.no_tf any_estimator (switched true true true (sv_flat (launch pl m n (mkServer L BfModel.XInvalid)))) (sv_frames (launch pl m n (mkServer L BfModel.XInvalid)))).
Proof.
  exists one_number. split; [intros [H _]; discriminate H|]. intros pl m n Hp Hm H. apply accepted_iff in H. destruct (a_stereo _ _ _ _ H) as [[c C] _]; [apply on_bool; reflexivity|].
  unfold launch in C. cbn [sv_flat] in C. destruct Hp as [<-|[<-|[<-|[]]]]; cbn [pl_missions snowboard ue4 simulator In] in Hm; intuition subst m; vm_compute in C; discriminate C.
Qed.
(* the platform is not the default one: without its robot file, or with two roots, the node does not start *)
Example no_robot : ~ can (single BfExamples.no_tf any_estimator (sv_flat (launch snowboard snowboard_tunnel 8 leftovers)) BfModel.XInvalid).
Proof. intros H. apply accepted_iff in H. destruct (a_frames _ _ _ _ H) as (b & L & _). discriminate L. Qed.
