(* Property C123: closed forms of the derivation script. Proofs in DaProofs.v; cases in DaExamples.v. *)
From Coq Require Import Reals List.
From Verif Require Import Base Mx Interp Geo EgModel RcModel RcSpec DaModel DaProofs DaExamples.
Import ListNotations.
Open Scope R_scope.

(* C123 *)
Theorem C123_point_mixed :
  forall (r t p q : vec3) (m : mx),
    In m [point_dzdx_hand r t p q; point_dzdx_alt1 r t p q; point_dzdx_alt2 r t p q] ->
    half_cross_hessian (point_cost turn1) r t p q (fun i j : nat => / 2 * m i j).
Proof. exact (@point_hand). Qed.
Theorem C123_plane_mixed :
  forall (r t p q n : vec3) (m : mx),
    In m [plane_dzdx_hand r t p q n; plane_dzdx_alt r t p q n] -> half_cross_hessian (plane_cost turn1 n) r t p q (fun i j : nat => / 2 * m i j).
Proof. exact (@plane_hand). Qed.
Theorem C123_plane_hessian :
  forall (r t p q n : vec3) (m : mx),
    In m [plane_dx2_hand p n; plane_dx2_alt p n] -> half_motion_hessian (plane_cost turn1 n) r t p q (fun i j : nat => / 2 * m i j).
Proof. exact (@plane_hessian_hand). Qed.
Theorem C123_rotations :
  forall (r : vec3) (R0 : option mat3),
    In R0 [rot r; rot_alt r; rot_alt2 r] ->
    (R0 = None <-> vnorm r = 0) /\ (forall M : mat3, R0 = Some M -> forall p : vec3, mapply M p = turn r p).
Proof. exact (@rotations). Qed.
Theorem C123_homogeneous :
  forall (M : mat3) (t p q n : vec3), residual_alt M t p q = (residual M t p q, 0) /\ height_alt M t p q n = height M t p q n.
Proof. exact (@homogeneous). Qed.
Theorem C123_costs :
  forall (r : vec3) (M : mat3) (t p q n : vec3),
    rot r = Some M ->
    vdot (residual M t p q) (residual M t p q) = point_cost turn r t p q /\ height M t p q n * height M t p q n = plane_cost turn n r t p q.
Proof. exact (@residual_costs). Qed.
Theorem C123_gradient_point :
  forall (f : R -> vec3) (d : vec3) (i : nat),
    derivable_pt_lim (fun x : R => let '(a, _, _) := f x in a) 0 (let '(a, _, _) := d in a) ->
    derivable_pt_lim (fun x : R => let '(_, a, _) := f x in a) 0 (let '(_, a, _) := d in a) ->
    derivable_pt_lim (fun x : R => let '(_, _, a) := f x in a) 0 (let '(_, _, a) := d in a) ->
    derivable_pt_lim (fun x : R => vdot (f x) (f x)) 0 (grad_point (fun _ : nat => d) (f 0) i).
Proof. exact (@gradient_point). Qed.
Theorem C123_gradient_plane :
  forall (h : R -> R) (d : R) (i : nat),
    derivable_pt_lim h 0 d -> derivable_pt_lim (fun x : R => h x * h x) 0 (grad_plane (fun _ : nat => d) (h 0) i).
Proof. exact (@gradient_plane). Qed.
Theorem C123_every_entry_written :
  forall (m : mx) (i j : nat) (v : R), In (i, j, v) (file 6 6 m) <-> (i < 6)%nat /\ (j < 6)%nat /\ v = m i j.
Proof. exact (@file_complete). Qed.
Theorem C123_written_once :
  forall m : mx, NoDup (map fst (file 6 6 m)).
Proof. exact (@file_once). Qed.
Theorem C123_no_angle_refuted :
  exists r : vec3, rot r = None /\ (forall p : vec3, turn1 r p = p).
Proof. exact (@no_angle_refuted). Qed.

Print Assumptions C123_point_mixed.
Print Assumptions C123_plane_mixed.
Print Assumptions C123_plane_hessian.
Print Assumptions C123_rotations.
Print Assumptions C123_homogeneous.
Print Assumptions C123_costs.
Print Assumptions C123_gradient_point.
Print Assumptions C123_gradient_plane.
Print Assumptions C123_every_entry_written.
Print Assumptions C123_written_once.
Print Assumptions C123_no_angle_refuted.
