(* What the statistics are meant to be *)
From Coq Require Import String ZArith List Bool Reals.
From Verif Require Import Base Interp Geo EgModel AnModel.
Import ListNotations.
Open Scope R_scope.

(* the number v is the greatest, the least of the numbers among the values *)
Definition greatest_of (l : list (option R)) (v : R) : Prop := In (Some v) l /\ forall x, In (Some x) l -> x <= v.
Definition least_of (l : list (option R)) (v : R) : Prop := In (Some v) l /\ forall x, In (Some x) l -> v <= x.
Fixpoint total (l : list R) : R := match l with [] => 0 | x :: l => x + total l end.
(* m is the mean and v the variance of the numbers *)
Definition mean_of (l : list R) (m : R) : Prop := INR (List.length l) * m = total l.
Definition variance_of (l : list R) (m v : R) : Prop := INR (List.length l) * v = total (map (fun x => (x - m) ^ 2) l).
(* one value for each point, all in the range of doubles *)
Definition proper (lowest highest : R) (c : acloud) : Prop :=
  forall f, In f (ac_fields c) -> List.length (af_values f) = ac_points c /\ forall x, In (Some x) (af_values f) -> lowest <= x <= highest.
Definition can_be_analysed (c : acloud) : Prop := ac_fields c = [] \/ (ac_points c <> 0%nat /\ forall f, In f (ac_fields c) -> af_known f = true).
