(* What the registration covariance should be: second derivatives of the registration cost, and the properties of a covariance. *)
From Coq Require Import Reals List.
From Verif Require Import Base Mx Interp Geo.
Open Scope R_scope.

(* rotation by a rotation vector r: by the angle |r| about the axis r / |r| (Rodrigues), for r <> 0 *)
Definition axis (r : vec3) : vec3 := vscale (/ vnorm r) r.
Definition turn (r p : vec3) : vec3 :=
  let a := vnorm r in let u := axis r in
  vadd (vadd (vscale (cos a) p) (vscale (sin a) (vcross u p))) (vscale ((1 - cos a) * vdot u p) u).
(* first order in the rotation vector *)
Definition turn1 (r p : vec3) : vec3 := vadd p (vcross r p).

(* cost of one correspondence: squared distance, or squared distance along the normal *)
Definition point_cost (w : vec3 -> vec3 -> vec3) (r t p q : vec3) : R := let e := vsub (vadd (w r p) t) q in vdot e e.
Definition plane_cost (w : vec3 -> vec3 -> vec3) (n : vec3) (r t p q : vec3) : R := let d := vdot n (vsub (vadd (w r p) t) q) in d * d.

(* l is the mixed second derivative of f at (0, 0) *)
Definition mixed2 (f : R -> R -> R) (l : R) : Prop :=
  exists (d : posreal) (g : R -> R), (forall y, Rabs y < d -> derivable_pt_lim (fun x => f x y) 0 (g y)) /\ derivable_pt_lim g 0 l.

(* unit directions of a pair of vectors: 0..2 the first, 3..5 the second *)
Definition unit3 (i : nat) : vec3 := match i with 0%nat => (1, 0, 0) | 1%nat => (0, 1, 0) | 2%nat => (0, 0, 1) | _ => v0 end.
Definition fst_dir (i : nat) : vec3 := unit3 i.
Definition snd_dir (i : nat) : vec3 := if Nat.ltb i 3 then v0 else unit3 (i - 3).
Definition move (v : vec3) (x : R) (u : vec3) : vec3 := vadd v (vscale x u).

(* H is half the second derivative of the cost F(r, t, p, q) in the motion (r, t); D half the mixed one in motion and measured points *)
Definition half_motion_hessian (F : vec3 -> vec3 -> vec3 -> vec3 -> R) (r t p q : vec3) (H : mx) : Prop :=
  forall i j, (i < 6)%nat -> (j < 6)%nat ->
  mixed2 (fun x y => F (move (move r x (fst_dir i)) y (fst_dir j)) (move (move t x (snd_dir i)) y (snd_dir j)) p q) (2 * H i j).
Definition half_cross_hessian (F : vec3 -> vec3 -> vec3 -> vec3 -> R) (r t p q : vec3) (D : mx) : Prop :=
  forall i j, (i < 6)%nat -> (j < 6)%nat ->
  mixed2 (fun x y => F (move r x (fst_dir i)) (move t x (snd_dir i)) (move p y (fst_dir j)) (move q y (snd_dir j))) (2 * D i j).
