(* What is claimed of the scripts about registration covariances. *)
From Coq Require Import Reals List.
From Verif Require Import Base Interp Geo EgModel MsModel RoModel BfModel EvModel EvSpec.
Import ListNotations.
Open Scope R_scope.

(* t is k standard deviations from zero under the covariance C: t' C^-1 t = k^2 *)
Definition deviates (C : mat3) (t : vec3) (k2 : R) : Prop := exists x, mapply C x = t /\ vdot t x = k2.
(* what is asked of eig, for the matrix it is given *)
Definition diag (d : vec3) : mat3 := let '(a, b, c) := d in ((a, 0, 0), (0, b, 0), (0, 0, c)).
Definition decomposes (C : mat3) (vd : mat3 * vec3) : Prop := orth (fst vd) /\ C = mmul (fst vd) (mmul (diag (snd vd)) (mT (fst vd))).
(* no direction without variance *)
Definition definite (C : mat3) : Prop := forall x, x <> v0 -> 0 < vdot x (mapply C x).
(* the shape drawn: every point k standard deviations from the mean and no other *)
Definition surface (draw : vec3 -> vec3) (means : vec3) (C : mat3) (k : R) : Prop :=
  forall p, (exists u, vdot u u = 1 /\ draw u = p) <-> deviates C (vsub p means) (k * k).
(* the motions of one pose to the next *)
Definition steps (l r : list mpose) : Prop :=
  S (length r) = length l /\ forall i a b, nth_error l i = Some a -> nth_error l (S i) = Some b ->
  exists x, nth_error r i = Some x /\ pose_to_matrix b = imul (pose_to_matrix a) (pose_to_matrix x).
(* the position of the second pose seen from the first *)
Definition seen_from (a b : mpose) : vec3 := iapp (iinv (pose_to_matrix a)) (mp_pos b).
(* the share of the points inside the sphere of radius one *)
Definition inside (o : option vec3) : bool := match o with Some e => rltb (vnorm e) 1 | None => false end.
Definition share (l : list (option vec3)) : R := INR (length (filter inside l)) / INR (length l).
