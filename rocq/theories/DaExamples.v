From Coq Require Import Reals Lra List.
From Verif Require Import Base Mx Interp Geo EgModel EgProofs RcModel RcSpec DaModel DaProofs.
Import ListNotations.
Open Scope R_scope.

(* an entry that does not vanish, in all three forms *)
Example ex_point : map (fun m : mx => m 0%nat 1%nat) [point_dzdx_hand (1, 2, 3) (4, 5, 6) (7, 8, 9) (1, 1, 1); point_dzdx_alt1 (1, 2, 3) (4, 5, 6) (7, 8, 9) (1, 1, 1); point_dzdx_alt2 (1, 2, 3) (4, 5, 6) (7, 8, 9) (1, 1, 1)] = [14; 14; 14].
Proof. cbv -[Rplus Rmult Ropp IZR Rminus]. repeat f_equal; lra. Qed.
Example ex_plane : plane_dzdx_hand (1, 2, 3) (4, 5, 6) (7, 8, 9) (1, 1, 1) (0, 0, 1) 0%nat 1%nat = 32 /\ plane_dx2_hand (7, 8, 9) (0, 0, 1) 0%nat 1%nat = -112.
Proof. split; cbv -[Rplus Rmult Ropp IZR Rminus]; lra. Qed.
Lemma one_norm : vnorm (0, 0, 1) = 1. Proof. unfold vnorm. cbn. replace (0 * 0 + 0 * 0 + 1 * 1) with 1 by lra. exact sqrt_1. Qed.
Example ex_rot : exists M, rot (0, 0, 1) = Some M /\ mapply M (1, 0, 0) = (cos 1, sin 1, 0).
Proof.
  unfold rot, unit_axis. rewrite one_norm. destruct (Req_EM_T 1 0) as [e|_]; [exfalso; lra|]. eexists. split; [reflexivity|]. cbv [mapply vdot]. apply f_equal2; [apply f_equal2|]; field.
Qed.
Example ex_gradient : derivable_pt_lim (fun x => (x + 3) * (x + 3)) 0 6.
Proof.
  replace 6 with (grad_plane (fun _ => 1) (0 + 3) 0) by (unfold grad_plane; lra). apply (gradient_plane (fun x => x + 3) 1 0).
  replace 1 with (1 + 0) by lra. apply (derivable_pt_lim_plus (fun x => x) (fun _ => 3)); [apply derivable_pt_lim_id|apply derivable_pt_lim_const].
Qed.
(* without an angle the script has no rotation, although the identity would be one *)
Theorem no_angle_refuted : exists r, rot r = None /\ forall p, turn1 r p = p.
Proof.
  exists v0. split; [apply (proj1 (rotations v0 (rot v0) (or_introl eq_refl)))|intros [[? ?] ?]; cbv [turn1 v0 vadd vcross]; apply f_equal2; [apply f_equal2|]; ring].
  unfold vnorm. cbn. replace (0 * 0 + 0 * 0 + 0 * 0) with 0 by lra. exact sqrt_0.
Qed.
