(* Evaluation scripts: alignment of a whole trajectory by gradient descent. *)
From Coq Require Import Reals List ZArith Lra Lia Bool.
From Verif Require Import Base Interp Geo EgModel EgProofs MsModel RoModel RoSpec RoProofs BfModel EvModel EvSpec EvProofs EvPose EvMove EvInter.
Import ListNotations.
Open Scope R_scope.

(* ---- the loss and its slope ---- *)
Definition placed (Rc : mat3) (tc : vec3) (l : list (vec3 * vec3)) : list (vec3 * vec3) := map (fun p => (vadd (mapply Rc (fst p)) tc, snd p)) l.
Lemma loss_is Rc tc gamma : forall l w, fst (fst (loss_sums Rc tc gamma w l)) = misfit gamma w (placed Rc tc l).
Proof. induction l as [|[a b] l IH]; intros w; [reflexivity|]. cbn [loss_sums placed map misfit fst snd]. specialize (IH (w * gamma)). destruct (loss_sums Rc tc gamma (w * gamma) l) as [[s gr] gt]. cbn [fst] in *. rewrite IH. reflexivity. Qed.
Lemma vnorm_pow v : vnorm v ^ 2 = vdot v v. Proof. rewrite <- vnorm_sq. ring. Qed.
Lemma square_slope f s d : derivable_pt_lim f s d -> derivable_pt_lim (fun x => f x * f x) s (2 * (f s * d)).
Proof. intros H. eapply dl_eq; [|apply (derivable_pt_lim_mult f f s d d H H)]. ring. Qed.
Lemma line_slope f s d v c : derivable_pt_lim f s d -> derivable_pt_lim (fun x => f x + x * v - c) s (d + v).
Proof.
  intros H. assert (L : derivable_pt_lim (fun x => x * v) s v) by (eapply dl_eq; [|apply (derivable_pt_lim_mult (fun x => x) (fun _ => v)); [apply derivable_pt_lim_id|apply derivable_pt_lim_const]]; cbn; ring).
  eapply dl_eq; [|apply (derivable_pt_lim_minus (fun x => f x + x * v) (fun _ => c) s (d + v) 0); [apply (derivable_pt_lim_plus f (fun x => x * v) s d v H L)|apply derivable_pt_lim_const]]. ring.
Qed.
Lemma point_slope u v p ref X : turns u p X -> derivable_pt_lim (fun s => vnorm (vsub (vadd (X s) (vscale s v)) ref) ^ 2) 0 (2 * (vdot u (mapply (skew p) (vsub p ref)) + vdot v (vsub p ref))).
Proof.
  intros [H0 M]. specialize (M 0). cbv beta in M. rewrite H0 in M. destruct u as [[u1 u2] u3], p as [[p1 p2] p3], v as [[v1 v2] v3], ref as [[r1 r2] r3]. cbn [vcross] in M. destruct M as (M1 & M2 & M3).
  set (f1 := fun s => fst (fst (X s)) + s * v1 - r1). set (f2 := fun s => snd (fst (X s)) + s * v2 - r2). set (f3 := fun s => snd (X s) + s * v3 - r3).
  assert (D1 : derivable_pt_lim f1 0 ((u2 * p3 - u3 * p2) + v1)) by (apply line_slope; exact M1). assert (D2 : derivable_pt_lim f2 0 ((u3 * p1 - u1 * p3) + v2)) by (apply line_slope; exact M2). assert (D3 : derivable_pt_lim f3 0 ((u1 * p2 - u2 * p1) + v3)) by (apply line_slope; exact M3).
  assert (E1 : f1 0 = p1 - r1) by (unfold f1; rewrite H0; cbn; ring). assert (E2 : f2 0 = p2 - r2) by (unfold f2; rewrite H0; cbn; ring). assert (E3 : f3 0 = p3 - r3) by (unfold f3; rewrite H0; cbn; ring).
  apply square_slope in D1, D2, D3. eapply dl_ext; [|eapply dl_eq; [|apply (derivable_pt_lim_plus (fun x => f1 x * f1 x + f2 x * f2 x) (fun x => f3 x * f3 x)); [apply (derivable_pt_lim_plus (fun x => f1 x * f1 x) (fun x => f2 x * f2 x)); [exact D1|exact D2]|exact D3]]].
  - intros s. unfold plus_fct, f1, f2, f3. cbv beta. rewrite vnorm_pow. destruct (X s) as [[x y] z]. cbn. ring.
  - rewrite E1, E2, E3. cbn. ring.
Qed.
Lemma gradient_sums u v gamma : forall l Xs w, Forall2 (fun p X => turns u (fst p) X) l Xs ->
  let '(_, gr, gt) := loss_sums mI v0 gamma w l in
  derivable_pt_lim (fun s => misfit gamma w (combine (map (fun X => vadd (X s) (vscale s v)) Xs) (map snd l))) 0 (vdot u (vscale 2 gr) + vdot v (vscale 2 gt)).
Proof.
  intros l Xs w H. revert w. induction H as [|[p ref] X l Xs Hp H IH]; intros w; cbn [loss_sums].
  - cbn [combine map misfit]. eapply dl_eq; [|apply derivable_pt_lim_const]. destruct u as [[? ?] ?], v as [[? ?] ?]. cbn. ring.
  - cbv zeta. specialize (IH (w * gamma)). destruct (loss_sums mI v0 gamma (w * gamma) l) as [[s gr] gt]. cbn [fst] in Hp. cbn [map combine misfit snd].
    assert (P := point_slope u v p ref X Hp). assert (Pw : derivable_pt_lim (fun s => w * vnorm (vsub (vadd (X s) (vscale s v)) ref) ^ 2) 0 (w * (2 * (vdot u (mapply (skew p) (vsub p ref)) + vdot v (vsub p ref))))) by (apply (derivable_pt_lim_scal (fun s => vnorm (vsub (vadd (X s) (vscale s v)) ref) ^ 2)); exact P).
    eapply dl_eq; [|exact (derivable_pt_lim_plus _ _ 0 _ _ Pw IH)]. rewrite mapply_I, vadd_0_r. set (d := vsub p ref). generalize d. clear. intros d. destruct p as [[? ?] ?], u as [[? ?] ?], v as [[? ?] ?], d as [[? ?] ?], gr as [[? ?] ?], gt as [[? ?] ?]. cbn. ring.
Qed.
(* the first step goes against the slope of the loss, cut off at the largest allowed change *)
Lemma first_step p l : exists gr gt, as_r (align_step p l astate0) = vsub v0 (clamp3 (ap_max_r p) (Some (vscale (ap_eta p) gr))) /\ as_t (align_step p l astate0) = vsub v0 (clamp3 (ap_max_t p) (Some (vscale (ap_eta p) gt))) /\
  forall u v Xs, Forall2 (fun q X => turns u (fst q) X) l Xs -> derivable_pt_lim (fun s => misfit (ap_gamma p) 1 (combine (map (fun X => vadd (X s) (vscale s v)) Xs) (map snd l))) 0 (vdot u gr + vdot v gt).
Proof.
  destruct (loss_sums mI v0 (ap_gamma p) 1 l) as [[s gr] gt] eqn:E. exists (vscale 2 gr), (vscale 2 gt). unfold align_step, astate0. cbn [as_R as_r as_t]. rewrite E. cbn [fst snd]. split; [reflexivity|]. split; [reflexivity|]. intros u v Xs H. pose proof (gradient_sums u v (ap_gamma p) l Xs 1 H) as G. rewrite E in G. exact G.
Qed.

(* ---- the correction is a motion, of limited size ---- *)
Lemma correction_proper r m : correction r = Some m -> proper m /\ rotation_vector r m.
Proof.
  unfold correction. destruct (Req_EM_T (vnorm r) 0) as [E|N]; [discriminate|]. intros [= <-]. destruct (normalized_nz r N) as (En & _). rewrite <- En. destruct (meaning v0 r) as (M1 & _ & _ & M2). split; [exact M2|exact M1].
Qed.
Definition sound_state (s : astate) : Prop := forall m, as_R s = Some m -> proper m /\ rotation_vector (as_r s) m.
Lemma steps_sound p l : forall n s, sound_state s -> sound_state (align_steps p l n s).
Proof. induction n as [|n IH]; intros s H; cbn [align_steps]; [exact H|]. apply IH. intros m. cbn [align_step as_R as_r]. apply correction_proper. Qed.
Lemma start_sound : sound_state astate0.
Proof. intros m [= <-]. split; [apply proper_I|]. intros q X T. rewrite mapply_I. rewrite (turns_unique v0 q X _ T (still_turns q) 1). reflexivity. Qed.
Lemma clamp_within m x : 0 <= m -> Rabs (clamp m x) <= m.
Proof. intros H. unfold clamp. destruct x as [y|]; [|rewrite Rabs_Ropp, Rabs_pos_eq; lra]. unfold Rmin, Rmax. destruct (Rle_dec y (- m)); destruct (Rle_dec _ m); apply Rabs_le; lra. Qed.
Lemma clamp3_within m v : 0 <= m -> within m (clamp3 m v).
Proof. intros H. unfold clamp3. destruct v as [[[x y] z]|]; repeat split; apply clamp_within; exact H. Qed.
Lemma within_sub a b v w : within a v -> within b w -> within (a + b) (vsub v w).
Proof. destruct v as [[? ?] ?], w as [[? ?] ?]. unfold within, vsub, vadd, vopp. intros (A1 & A2 & A3) (B1 & B2 & B3). repeat split; (eapply Rle_trans; [apply Rabs_triang|rewrite Rabs_Ropp; lra]). Qed.
Lemma within_le a b v : a <= b -> within a v -> within b v.
Proof. destruct v as [[? ?] ?]. unfold within. intros H (A1 & A2 & A3). repeat split; lra. Qed.
Lemma steps_within p l : 0 <= ap_max_r p -> 0 <= ap_max_t p -> forall n s a b, within a (as_r s) -> within b (as_t s) ->
  within (a + INR n * ap_max_r p) (as_r (align_steps p l n s)) /\ within (b + INR n * ap_max_t p) (as_t (align_steps p l n s)).
Proof.
  intros Hr Ht. induction n as [|n IH]; intros s a b A B; cbn [align_steps].
  - cbn [INR]. split; [eapply within_le; [|exact A]; lra|eapply within_le; [|exact B]; lra].
  - destruct (IH (align_step p l s) (a + ap_max_r p) (b + ap_max_t p)) as [I1 I2].
    + cbn [align_step as_r]. apply within_sub; [exact A|apply clamp3_within; exact Hr].
    + cbn [align_step as_t]. apply within_sub; [exact B|apply clamp3_within; exact Ht].
    + rewrite S_INR. split; [eapply within_le; [|exact I1]; lra|eapply within_le; [|exact I2]; lra].
Qed.

Section Whole.
Variable mixq : quat -> quat -> R -> quat.
Variable r2q : mat3 -> quat.
Hypothesis unit_mix : stays_unit mixq.
Hypothesis ends : keeps_ends mixq.
Hypothesis reads : reads_rotation r2q.
Lemma align_is p ref l l' : in_order ref -> all_oriented ref -> all_oriented l -> 0 <= ap_max_r p -> 0 <= ap_max_t p -> align_trajectory mixq r2q p ref l = Ok l' ->
  exists t x rest g r tc Rc, l = (t, x) :: rest /\ value_at pose_to_matrix (pose_between mixq) ref t g /\ rotation_vector r Rc /\ proper Rc /\ within (INR (ap_iterations p) * ap_max_r p) r /\ within (INR (ap_iterations p) * ap_max_t p) tc /\
    displaced (imul (imul (mkIso Rc tc) g) (iinv (pose_to_matrix x))) l l' /\ all_oriented l'.
Proof.
  intros O Ar Al Hr Ht H. unfold align_trajectory in H. destruct (interpolate_trajectory mixq r2q (map fst l) ref) as [iref| |] eqn:Ei; cbn [rbind] in H; try discriminate. destruct iref as [|[t0 first] iref]; [discriminate|].
  destruct (interpolate_sound mixq r2q unit_mix ends reads (map fst l) ref _ O Ar Ei) as [S1 S2]. destruct (S2 t0 first (or_introl eq_refl)) as [V Of]. destruct l as [|[t x] rest]; [discriminate|]. cbn [map fst] in S1. injection S1 as -> _.
  destruct (recompute_trajectory r2q ((t, x) :: rest) first) as [al| |] eqn:Ea; cbn [rbind] in H; try discriminate. cbv zeta in H. set (pairs := combine _ _) in H. set (s := align_steps p pairs (ap_iterations p) astate0) in *. destruct (as_R s) as [Rc|] eqn:ER; [|discriminate].
  assert (SS : sound_state s) by (unfold s; apply steps_sound, start_sound). destruct (SS Rc ER) as [P Q]. assert (Mg : motion (pose_to_matrix first)) by (apply pose_motion; exact Of).
  assert (W := steps_within p pairs Hr Ht (ap_iterations p) astate0 0 0 ltac:(cbn; rewrite Rabs_R0; repeat split; lra) ltac:(cbn; rewrite Rabs_R0; repeat split; lra)). rewrite !Rplus_0_l in W. fold s in W. destruct W as [W1 W2].
  assert (Mn : motion (imul (mkIso Rc (as_t s)) (pose_to_matrix first))) by (apply motion_mul; [exact P|exact Mg]). destruct (to_pose_back r2q reads _ Mn) as (B1 & B2 & _).
  destruct (recompute_is r2q reads ((t, x) :: rest) _ Al B2) as (l2 & E & D & A). rewrite E in H. injection H as <-. rewrite B1 in D. exists t, x, rest, (pose_to_matrix first), (as_r s), (as_t s), Rc.
  split; [reflexivity|]. split; [exact V|]. split; [exact Q|]. split; [exact P|]. split; [exact W1|]. split; [exact W2|]. split; [exact D|exact A].
Qed.
(* alignment does not touch the relative errors and the length *)
Lemma align_relative p ref gt l l' o : in_order ref -> all_oriented ref -> all_oriented l -> all_oriented gt -> 0 <= ap_max_r p -> 0 <= ap_max_t p -> align_trajectory mixq r2q p ref l = Ok l' -> compute_pose_errors mixq gt l = Ok o ->
  (exists a, compute_pose_errors mixq gt l' = Ok (mkEO a (eo_abs_t o) (eo_rel o) (eo_rel_t o))) /\ compute_trajectory_length (map snd l') = compute_trajectory_length (map snd l).
Proof.
  intros O Ar Al Ag Hr Ht H Ho. destruct (align_is p ref l l' O Ar Al Hr Ht H) as (t & x & rest & g & r & tc & Rc & -> & V & _ & P & _ & _ & D & A).
  assert (Rg : rigid (imul (imul (mkIso Rc tc) g) (iinv (pose_to_matrix x)))). { apply motion_rigid. apply motion_mul; [apply motion_mul; [exact P|apply (value_motion mixq unit_mix ref t g Ar V)]|apply motion_inv, pose_motion, (Al (t, x)); left; reflexivity]. }
  split; [exact (relative_displaced mixq unit_mix _ gt _ _ o Rg Ag Al D Ho)|exact (length_displaced _ _ _ Rg Al A D)].
Qed.
End Whole.

(* ---- a trajectory that fits already ---- *)
Lemma fitting_sums gamma : forall l w, (forall e, In e l -> fst e = snd e) -> loss_sums mI v0 gamma w l = (0, v0, v0).
Proof.
  induction l as [|[a b] l IH]; intros w H; [reflexivity|]. cbn [loss_sums]. cbv zeta. rewrite IH by (intros e He; apply H; right; exact He). assert (a = b) as -> by (apply (H (a, b)); left; reflexivity). rewrite mapply_I, vadd_0_r, vnorm_pow.
  destruct b as [[x y] z]. unfold v0, vsub, vadd, vscale, vopp, mapply, skew, vdot. apply f_equal2; [apply f_equal2|]; [ring|apply triple_eq; ring|apply triple_eq; ring].
Qed.
Lemma clamp_zero m : 0 <= m -> clamp m (Some 0) = 0.
Proof. intros H. unfold clamp, Rmin, Rmax. destruct (Rle_dec 0 (- m)); destruct (Rle_dec _ m); lra. Qed.
Lemma fitting_step p l : 0 <= ap_max_r p -> 0 <= ap_max_t p -> (forall e, In e l -> fst e = snd e) -> align_step p l astate0 = mkAS v0 v0 None.
Proof.
  intros Hr Ht H. unfold align_step, astate0. cbn [as_R as_r as_t]. rewrite (fitting_sums _ l 1 H). cbn [fst snd]. assert (Z : vscale (ap_eta p) (vscale 2 v0) = v0) by (unfold v0, vscale; apply triple_eq; ring). rewrite Z. unfold clamp3, v0. rewrite !clamp_zero by assumption.
  assert (Z2 : vsub (0, 0, 0) (0, 0, 0) = v0) by (unfold v0, vsub, vadd, vopp; apply triple_eq; ring). rewrite Z2. f_equal. unfold correction. destruct (Req_EM_T (vnorm v0) 0) as [|N]; [reflexivity|]. exfalso. apply N. apply norm_v0.
Qed.
Lemma fitting_second p l : 0 <= ap_max_r p -> 0 <= ap_max_t p -> (forall e, In e l -> fst e = snd e) -> as_r (align_steps p l 2 astate0) = (ap_max_r p, ap_max_r p, ap_max_r p) /\ as_t (align_steps p l 2 astate0) = (ap_max_t p, ap_max_t p, ap_max_t p).
Proof.
  intros Hr Ht H. cbn [align_steps]. rewrite fitting_step by assumption. unfold align_step. cbn [as_R as_r as_t fst snd clamp3 clamp]. unfold v0, vsub, vadd, vopp. split; apply triple_eq; ring.
Qed.
(* the printed losses *)
Lemma printed_loss p l : initial_loss p l = (if Nat.eqb (ap_iterations p) 0 then Some (-1) else Some (misfit (ap_gamma p) 1 l)) /\ (ap_iterations p = 1%nat -> final_loss p l = Some (-1)) /\
  (forall n Rc, ap_iterations p = S (S n) -> as_R (align_steps p l (S n) astate0) = Some Rc -> final_loss p l = Some (misfit (ap_gamma p) 1 (placed Rc (as_t (align_steps p l (S n) astate0)) l))).
Proof.
  split; [|split].
  - unfold initial_loss. destruct (Nat.eqb (ap_iterations p) 0); [reflexivity|]. unfold loss_at, astate0. cbn [align_steps as_R as_t]. rewrite loss_is. f_equal. f_equal. unfold placed. rewrite <- (map_id l) at 2. apply map_ext. intros [a b]. cbn [fst snd]. rewrite mapply_I. destruct a as [[? ?] ?]. unfold v0, vadd. f_equal. apply triple_eq; ring.
  - intros H. unfold final_loss. rewrite H. reflexivity.
  - intros n Rc H HR. unfold final_loss. rewrite H. replace (Nat.leb (S (S n)) 1) with false by reflexivity. unfold loss_at. replace (S (S n) - 1)%nat with (S n) by lia. rewrite HR, loss_is. reflexivity.
Qed.
