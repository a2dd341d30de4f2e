(* What is claimed of launching a shipped platform. *)
From Coq Require Import ZArith QArith List Bool String.
From Verif Require Import Base CfgModel BfModel MsnModel.
Import ListNotations.
Open Scope string_scope.
Open Scope list_scope.

(* P' is P with the settings of a file laid over it: the last setting of a key counts, other keys keep what they had *)
Definition overlaid (kvs : list (string * pval)) (P P' : params) : Prop :=
  (forall k, ~ In k (map fst kvs) -> P' k = P k) /\
  (forall a k v b, kvs = a ++ (k, v) :: b -> ~ In k (map fst b) -> P' k = Some v).
(* the value at a path of a tree *)
Fixpoint value_at (p : list string) (t : xv) : option xv :=
  match p with [] => Some t | k :: q => match member k t with Some w => value_at q w | None => None end end.
Definition prefix (p q : list string) : Prop := exists r, q = p ++ r.
Definition apart (p q : list string) : Prop := ~ prefix p q /\ ~ prefix q p.

(* a server on which nothing but this platform has been launched since body_frames was last empty; the other parameters are anything *)
Inductive used (pl : platform) : server -> Prop :=
| Fresh : forall sv, sv_frames sv = XInvalid -> used pl sv
| Again : forall sv m n, used pl sv -> In m (pl_missions pl) -> used pl (launch pl m n sv)
(* parameters other than body_frames changed by hand *)
| Edited : forall sv P, used pl sv -> used pl (mkServer P (sv_frames sv)).

(* the user switches factors on and off *)
Definition switched (registration stereo barometer : bool) (P : params) : params := fun k =>
  if String.eqb "optimisation/factors/registration" k then Some (VBool registration)
  else if String.eqb "optimisation/factors/stereo" k then Some (VBool stereo)
  else if String.eqb "optimisation/factors/barometer" k then Some (VBool barometer)
  else P k.
(* gtsam takes a Huber estimator with a positive parameter *)
Definition huber_accepted (ok : robust -> bool) : Prop := forall k s, (0 < k)%Q -> ok (Robust Huber (Some k) s) = true.
(* Two keys that the tracker reads and no shipped file sets (the files have them below pyrlk/): a value left by hand counts *)
Definition flow_unset (P : params) : Prop :=
  P "stereo_tracking/sparse_optical_flow/win_size" = None /\ P "stereo_tracking/sparse_optical_flow/term_criteria/type" = None.
