(* What the navigation tools should publish. *)
From Coq Require Import ZArith Reals List.
From Verif Require Import Base Mx Interp Geo EgModel CvModel MsModel NvModel.
Import ListNotations.
Open Scope R_scope.

(* motions one after the other, each relative to the one before *)
Definition one_after_another (l : list iso) : iso := fold_left imul l iid.
(* the rigid motion that a pose message states *)
Definition motion_of (p : mpose) : iso := to_transform (mp_pos p) (mp_ori p).
(* every entry of a covariance array is zero *)
Definition no_uncertainty (c : list (option R)) : Prop := length c = 36%nat /\ forall x, In x c -> x = Some 0.

(* the measurements of a message sequence with the time each stands for, in seconds: since the message before it *)
Fixpoint timed (t : Z) (l : list rimu) : list (vec3 * vec3 * R) :=
  match l with [] => [] | m :: l => (ri_a m, ri_w m, IZR (ri_time m - t) / 1000000000) :: timed (ri_time m) l end.
Definition feed {pim} (add : pim -> vec3 -> vec3 -> R -> pim) (p : pim) (l : list (vec3 * vec3 * R)) : pim :=
  fold_left (fun p x => let '(a, w, dt) := x in add p a w dt) l p.
Definition total (l : list (vec3 * vec3 * R)) : R := fold_right (fun x s => snd x + s) 0 l.
(* some message has the stamp of the one before, or an earlier one where steps back are refused *)
Fixpoint stalls (strict : bool) (t : Z) (l : list rimu) : Prop :=
  match l with [] => False | m :: l => (ri_time m = t \/ strict = true /\ (ri_time m < t)%Z) \/ stalls strict (ri_time m) l end.
