(* The hypotheses of the theorems on rotation vectors are met; what the rates are not. *)
From Coq Require Import Reals Lra Lia Psatz.
From Verif Require Import Base Mx Interp Geo EgModel EgProofs RcModel RcSpec RcProofs RcComp RoModel RoSpec RoProofs.
Open Scope R_scope.

Lemma spin_vector a u : vdot u u = 1 -> rotation_vector (vscale a u) (aa_matrix a u).
Proof. intros U p X T. rewrite (turns_unique _ p X _ T (spin_turns a u p U) 1), Rmult_1_l. reflexivity. Qed.

(* half a turn about z, with a step along x *)
Definition half_turn : iso := mkIso ((-1, 0, 0), (0, -1, 0), (0, 0, 1)) (1, 0, 0).
Lemma half_turn_motion : motion half_turn. Proof. unfold motion, proper, half_turn, orth. cbn [lin]. split; [split; vring|unfold det; ring]. Qed.
Lemma half_turn_quat : quat_of (lin half_turn) = (0, 0, 0, 1).
Proof.
  unfold quat_of, half_turn. cbn [lin]. destruct (Rlt_dec 0 (-1 + -1 + 1)) as [L|_]; [lra|]. destruct (Rlt_dec (-1) (-1)) as [L|_]; [lra|]. destruct (Rlt_dec (-1) 1) as [_|L]; [|lra].
  replace (1 - -1 - -1 + 1) with (2 * 2) by ring. rewrite sqrt_square by lra. tup; field.
Qed.
Lemma half_turn_axis : angle_axis (0, 0, 0, 1) = (PI, (0, 0, 1)).
Proof.
  unfold angle_axis. assert (N : vnorm (0, 0, 1) = 1) by (unfold vnorm; cbn; replace (0 * 0 + 0 * 0 + 1 * 1) with (1 * 1) by ring; apply sqrt_square; lra). rewrite N. destruct (Req_EM_T 1 0); [lra|].
  rewrite Rabs_R0. unfold atan2_pos. destruct (Req_EM_T 0 0) as [_|X]; [|contradiction X; reflexivity]. destruct (Rlt_dec 0 0); [lra|]. cbn. f_equal; [field|tup; field].
Qed.
Lemma half_turn_rates : linear_rates iid half_turn 1 = Ok ((0, 0, PI), (1, 0, 0)).
Proof.
  unfold linear_rates. destruct (Rle_dec 1 0); [lra|]. assert (E : relative_transform iid half_turn = half_turn).
  { unfold relative_transform. replace (iinv iid) with iid by (unfold iinv, iid, v0; cbn; f_equal; tup; ring). apply imul_id_l. }
  rewrite E, half_turn_quat, half_turn_axis. cbn. f_equal. f_equal; tup; field.
Qed.
Example stored_half_turn : let k := paa_of_iso half_turn in a_rot k = (0, 0, PI) /\ paa_iso k = half_turn.
Proof.
  cbv zeta. split; [|apply stored_iso; apply half_turn_motion]. unfold paa_of_iso, paa_set. rewrite half_turn_quat, half_turn_axis. cbn. tup; ring.
Qed.
(* a rotation vector shorter than pi, and one that is not *)
Example vector_kept : paa_of_quat v0 (paa_quat (mkPAA v0 (0, 0, 1))) = mkPAA v0 (0, 0, 1).
Proof. apply stored_vector. assert (N : vnorm (0, 0, 1) = 1) by (unfold vnorm; cbn; replace (0 * 0 + 0 * 0 + 1 * 1) with (1 * 1) by ring; apply sqrt_square; lra). rewrite N. pose proof PI2_1. lra. Qed.
Example vector_not_kept : exists r, paa_of_quat v0 (paa_quat (mkPAA v0 r)) <> mkPAA v0 r.
Proof.
  exists (0, 0, 2 * PI). intros E. pose proof (meaning v0 (0, 0, 2 * PI)) as (_ & Q & _ & _). destruct (stored v0 _ Q) as (_ & A & _). rewrite E in A. unfold paa_angle in A. cbn [a_rot] in A. pose proof PI_RGT_0.
  assert (N : vnorm (0, 0, 2 * PI) = 2 * PI) by (unfold vnorm; cbn; replace (0 * 0 + 0 * 0 + 2 * PI * (2 * PI)) with ((2 * PI) * (2 * PI)) by ring; apply sqrt_square; lra). lra.
Qed.
Lemma zero_rotation_refuted : exists r t, rotation_vector r mI /\ parts_rt r t = None.
Proof. exists v0, v0. split; [|apply parts_zero]. pose proof (vector_rotation v0) as H. rewrite norm_v0, aa_zero in H. exact H. Qed.

(* the same rates, each expressed in the frame of the moving body, lead elsewhere *)
Definition body_rates (w v : vec3) (M : R -> mat3) (P : R -> vec3) : Prop :=
  (forall s, rotation_vector (vscale s w) (M s)) /\ P 0 = v0 /\ moves P (fun s => mapply (M s) v).
Lemma body_rates_refuted : exists p1 p2 w v, motion p1 /\ motion p2 /\ linear_rates p1 p2 1 = Ok (w, v) /\
  (exists M P, body_rates w v M P) /\ forall M P, body_rates w v M P -> P 1 <> tr (relative_transform p1 p2).
Proof.
  exists iid, half_turn, (0, 0, PI), (1, 0, 0). split; [apply motion_id|]. split; [apply half_turn_motion|]. split; [apply half_turn_rates|]. pose proof PI_RGT_0 as PP.
  assert (AV : forall s, rotation_vector (vscale s (0, 0, PI)) (aa_matrix (s * PI) (0, 0, 1))).
  { intros s. replace (vscale s (0, 0, PI)) with (vscale (s * PI) (0, 0, 1)) by (cbn; tup; ring). apply spin_vector. cbn. ring. }
  assert (DS : forall s, derivable_pt_lim (fun s => sin (s * PI) / PI) s (cos (s * PI))).
  { intros s. assert (L : derivable_pt_lim (fun s => s * PI) s PI) by (eapply dl_eq; [|apply (derivable_pt_lim_mult (fun s => s) (fun _ => PI)); [apply derivable_pt_lim_id|apply derivable_pt_lim_const]]; cbn; ring).
    eapply dl_eq; [|eapply dl_ext; [|apply (derivable_pt_lim_scal (fun s => sin (s * PI)) (/ PI)); apply (derivable_pt_lim_comp (fun s => s * PI) sin s _ (cos (s * PI)) L); apply derivable_pt_lim_sin]]; [cbn; field; lra|]. intros y. unfold mult_real_fct. cbv beta. field. lra. }
  split.
  - exists (fun s => aa_matrix (s * PI) (0, 0, 1)), (fun s => (sin (s * PI) / PI, (1 - cos (s * PI)) / PI, 0)). split; [exact AV|]. split.
    + rewrite Rmult_0_l, sin_0, cos_0. unfold v0. tup; field; lra.
    + intros s. unfold aa_matrix. cbn -[sin cos]. split; [|split].
      * eapply dl_eq; [|apply DS]. ring.
      * assert (L : derivable_pt_lim (fun s => s * PI) s PI) by (eapply dl_eq; [|apply (derivable_pt_lim_mult (fun s => s) (fun _ => PI)); [apply derivable_pt_lim_id|apply derivable_pt_lim_const]]; cbn; ring).
        eapply dl_eq; [|eapply dl_ext; [|apply (derivable_pt_lim_scal (fun s => 1 - cos (s * PI)) (/ PI)); apply (derivable_pt_lim_minus (fun _ => 1) (fun s => cos (s * PI))); [apply derivable_pt_lim_const|apply (derivable_pt_lim_comp (fun s => s * PI) cos s _ (- sin (s * PI)) L); apply derivable_pt_lim_cos]]]; [cbn; field; lra|].
        intros y. unfold mult_real_fct, minus_fct. cbv beta. cbn. field. lra.
      * eapply dl_eq; [|apply derivable_pt_lim_const]. ring.
  - intros M P (HM & P0 & MP) E. assert (ME : forall s, M s = aa_matrix (s * PI) (0, 0, 1)) by (intros s; apply (rotation_vector_unique (vscale s (0, 0, PI))); [apply HM|apply AV]).
    assert (F : forall s, derivable_pt_lim (fun s => fst (fst (P s)) - sin (s * PI) / PI) s 0).
    { intros s. specialize (MP s). cbv beta in MP. rewrite ME in MP. unfold aa_matrix in MP. cbn -[sin cos] in MP. destruct MP as (D & _ & _). eapply dl_eq; [|apply (derivable_pt_lim_minus _ _ _ _ _ D (DS s))]. ring. }
    pose proof (flat _ F 1) as K. cbv beta in K. rewrite P0, E, Rmult_0_l, Rmult_1_l, sin_0, sin_PI in K. revert K. unfold relative_transform, imul, iinv, iid, half_turn, v0. cbn. intros K.
    assert (Z : 0 / PI = 0) by (field; lra). rewrite Z in K. lra.
Qed.
