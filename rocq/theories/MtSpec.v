(* What the metrics mean. *)
From Coq Require Import ZArith Reals List.
From Verif Require Import Base Interp Geo MtModel.
Import ListNotations.
Open Scope R_scope.

(* the value published under a name *)
Definition published_as (l : list (metric * option R)) (m : metric) (v : option R) : Prop := In (m, v) l /\ forall w, In (m, w) l -> w = v.
(* the angle between two orientations: that of the rotation from one to the other *)
Definition trace (m : mat3) : R := let '((a, _, _), (_, b, _), (_, _, c)) := m in a + b + c.
Definition angle_between (p q : quat) (a : R) : Prop := 0 <= a <= PI /\ 1 + 2 * cos a = trace (mmul (mT (qmat p)) (qmat q)).
(* the last messages of each kind *)
Definition poses (l : list mevent) : list (npose * list (option R)) := flat_map (fun e => match e with EPose p => [p] | _ => [] end) l.
Definition regs (l : list mevent) : list (list (option R)) := flat_map (fun e => match e with EReg c => [c] | _ => [] end) l.
Definition paths (l : list mevent) : list (list npose) := flat_map (fun e => match e with EPath c => [c] | _ => [] end) l.
Definition last_of {A} (l : list A) : option A := match rev l with a :: _ => Some a | [] => None end.
Definition last_but_one {A} (l : list A) : option A := match rev l with _ :: a :: _ => Some a | _ => None end.
(* the largest positive entry, at the first place where it stands *)
Definition largest (c : list (option R)) (m : R) (i : nat) : Prop := nth_error c i = Some (Some m) /\ 0 < m /\ (forall j x, nth_error c j = Some (Some x) -> x <= m) /\ forall j x, (j < i)%nat -> nth_error c j = Some (Some x) -> x < m.
Definition none_positive (c : list (option R)) : Prop := forall j x, nth_error c j = Some (Some x) -> x <= 0.
