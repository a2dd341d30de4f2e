(* What the repaired recording should be. *)
From Coq Require Import ZArith List Bool String.
From Verif Require Import RpModel.
Import ListNotations.
Open Scope Z_scope.

(* one topic name stands in the other *)
Definition part_of (a b : string) : Prop := exists x y : string, b = (x ++ a ++ y)%string.
(* the stamps of the clouds of a recording, in order *)
Definition is_cloud (m : rmsg) : bool := String.eqb (r_topic m) "/os_cloud_node/points".
Definition stamps (l : list rmsg) : list Z := flat_map (fun m => if is_cloud m then match r_stamp m with Some t => [t] | None => [] end else []) l.
(* the recording has no other topic whose name stands in that of the clouds *)
Definition clear_topics (l : list rmsg) : Prop := forall m, In m l -> part_of (r_topic m) "/os_cloud_node/points" -> r_topic m = "/os_cloud_node/points"%string.
Definition but_stamp (m : rmsg) : string * bool * Z * nat := (r_topic m, match r_stamp m with Some _ => true | None => false end, r_time m, r_body m).
(* strictly increasing *)
Definition increasing (l : list Z) : Prop := forall a x y b, l = a ++ x :: y :: b -> x < y.
(* the gaps between true stamps have room for the missing ones at the given spacing *)
Definition room (d : Z) (l : list Z) : Prop :=
  (forall a s k t b, l = a ++ s :: repeat 0 k ++ t :: b -> s <> 0 -> t <> 0 -> s + Z.of_nat k * d < t) /\
  (forall k t b, l = repeat 0 (S k) ++ t :: b -> t <> 0 -> Z.of_nat (S k) * d < t).
