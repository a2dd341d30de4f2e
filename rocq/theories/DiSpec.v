(* The distance from a point to a set of points. *)
From Coq Require Import Reals List.
From Verif Require Import Base Interp Geo.
Open Scope R_scope.

Definition apart_by (p q : vec3) : R := vnorm (vsub p q).
(* r is the smallest distance from q to a point of l *)
Definition distance_to (l : list vec3) (q : vec3) (r : R) : Prop := (exists p, In p l /\ r = apart_by q p) /\ forall p, In p l -> r <= apart_by q p.
(* what a nearest neighbour search should report: for a target that is not empty, the squared distance *)
Definition search_ok (nearest : list vec3 -> vec3 -> option R) : Prop :=
  (forall l q d, nearest l q = Some d -> 0 <= d /\ distance_to l q (sqrt d)) /\ forall l q, l <> nil -> nearest l q <> None.
