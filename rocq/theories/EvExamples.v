(* Evaluation scripts: refutations and cases that meet the hypotheses. *)
From Coq Require Import Reals List ZArith Lra Lia Bool.
From Verif Require Import Base Interp Geo EgModel EgProofs MsModel RoModel RoSpec RoProofs BfModel EvModel EvSpec EvProofs EvPose EvMove EvInter EvAlign EvSelf EvTrack.
Import ListNotations.
Open Scope R_scope.

Ltac decide_r := repeat match goal with
  | |- context [Rle_dec ?a ?b] => destruct (Rle_dec a b); try (exfalso; lra)
  | |- context [Rlt_dec ?a ?b] => destruct (Rlt_dec a b); try (exfalso; lra)
  | |- context [Req_EM_T ?a ?b] => destruct (Req_EM_T a b); try (exfalso; lra) end.

(* the relative vector error is not the change of the absolute one *)
Definition still2 : list (R * vec3) := [(0, v0); (1, v0)].
Definition going2 : list (R * vec3) := [(0, v0); (1, (1, 0, 0))].
Lemma still2_increasing : increasing still2.
Proof. intros [|[|[|i]]] [|[|[|j]]] a b Ha Hb L; cbn in Ha, Hb; try discriminate; try lia. injection Ha as <-. injection Hb as <-. cbn. lra. Qed.
Lemma vector_case : exists o, compute_vector_errors still2 going2 = Ok o /\ nth_error (eo_abs o) 0 = Some v0 /\ nth_error (eo_abs o) 1 = Some (1, 0, 0) /\ nth_error (eo_rel o) 0 = Some (-1, 0, 0).
Proof.
  unfold compute_vector_errors, errors, still2, going2. cbv zeta. cbn [inside filter last fst snd]. unfold rleb. decide_r. cbn [andb errors_loop].
  assert (A0 : advance None [(0, v0); (1, v0)] 0 = (None, [(0, v0); (1, v0)])) by (cbn [advance fst]; rewrite (proj2 (rltb_f 0 0)) by lra; reflexivity).
  assert (A1 : advance None [(0, v0); (1, v0)] 1 = (Some (0, v0), [(1, v0)])) by (cbn [advance fst]; rewrite (proj2 (rltb_t 0 1)), (proj2 (rltb_f 1 1)) by lra; reflexivity).
  rewrite A0. cbn [fst snd]. rewrite A1. unfold at_time. cbn [fst snd]. decide_r. cbn [rbind fst snd]. eexists. split; [reflexivity|]. cbn [eo_abs eo_rel nth_error].
  unfold v0, vsub, vadd, vopp. repeat split; f_equal; apply triple_eq; ring.
Qed.
Theorem relative_sign_refuted : exists gt l o a b r, increasing gt /\ increasing l /\ compute_vector_errors gt l = Ok o /\ nth_error (eo_abs o) 0 = Some a /\ nth_error (eo_abs o) 1 = Some b /\ nth_error (eo_rel o) 0 = Some r /\ r <> vsub b a.
Proof.
  destruct vector_case as (o & H & A & B & C). exists still2, going2, o, v0, (1, 0, 0), (-1, 0, 0). split; [exact still2_increasing|]. split; [|split; [exact H|split; [exact A|split; [exact B|split; [exact C|]]]]].
  - intros [|[|[|i]]] [|[|[|j]]] a b Ha Hb L; cbn in Ha, Hb; try discriminate; try lia. injection Ha as <-. injection Hb as <-. cbn. lra.
  - unfold v0, vsub, vadd, vopp. intros E. injection E as E. lra.
Qed.

(* once a rotation has been found, what is followed is no longer the slope of the loss *)
Definition zaxis : vec3 := (0, 0, 1).
Lemma circle : turns zaxis (1, 0, 0) (fun s => (cos s, sin s, 0)).
Proof.
  split; [cbv beta; rewrite cos_0, sin_0; reflexivity|]. intros s. unfold zaxis. cbn [vcross fst snd]. split; [|split].
  - eapply dl_eq; [|apply derivable_pt_lim_cos]. ring.
  - eapply dl_eq; [|apply derivable_pt_lim_sin]. ring.
  - eapply dl_eq; [|apply derivable_pt_lim_const]. ring.
Qed.
Theorem later_slope_refuted : exists u theta p ref Rc, correction (vscale theta u) = Some Rc /\ vdot u (vscale 2 (snd (fst (loss_sums Rc v0 1 1 [(p, ref)])))) = 2 /\
  forall X, turns u p X -> X theta = mapply Rc p /\ derivable_pt_lim (fun s => misfit 1 1 [(X s, ref)]) theta (-2).
Proof.
  exists zaxis, PI, (1, 0, 0), (0, -1, 0). pose proof PI_RGT_0 as PP. assert (N : vnorm (vscale PI zaxis) = PI) by (unfold vnorm, zaxis; cbn; replace (PI * 0 * (PI * 0) + PI * 0 * (PI * 0) + PI * 1 * (PI * 1)) with (PI * PI) by ring; apply sqrt_square; lra).
  assert (E : correction (vscale PI zaxis) = Some (aa_matrix PI zaxis)). { unfold correction. rewrite N. destruct (Req_EM_T PI 0) as [Z|_]; [lra|]. f_equal. f_equal. unfold zaxis, vscale. apply triple_eq; field; lra. }
  assert (M : aa_matrix PI zaxis = ((-1, 0, 0), (0, -1, 0), (0, 0, 1))). { unfold aa_matrix, zaxis. rewrite sin_PI, cos_PI. unfold vscale. apply f_equal2; [apply f_equal2|]; apply triple_eq; ring. }
  exists (aa_matrix PI zaxis). split; [exact E|]. rewrite M. split.
  - cbn. unfold v0, zaxis, vdot, vscale, vadd, vsub, vopp, mapply, Geo.skew. cbn. ring.
  - intros X T. assert (XX : forall s, X s = (cos s, sin s, 0)) by (intros s; apply (turns_unique zaxis (1, 0, 0) X _ T circle s)). split.
    + rewrite XX, cos_PI, sin_PI. unfold mapply, vdot. apply triple_eq; ring.
    + eapply (dl_ext (fun s => 2 + 2 * sin s)).
      * intros s. cbn [misfit]. rewrite XX, vnorm_pow. unfold vsub, vadd, vopp, vdot. pose proof (sin2_cos2 s) as K. unfold Rsqr in K. nra.
      * eapply dl_eq; [|apply (derivable_pt_lim_plus (fun _ => 2) (fun s => 2 * sin s) PI 0 (2 * cos PI)); [apply derivable_pt_lim_const|apply (derivable_pt_lim_scal sin); apply derivable_pt_lim_sin]]. rewrite cos_PI. ring.
Qed.

(* a trajectory aligned to itself gives no number after one iteration and is thrown off after two *)
Definition id_pose (x : R) : mpose := mkMP (x, 0, 0) qI.
Definition walk2 : list (R * mpose) := [(0, id_pose 0); (1, id_pose 1)].
Lemma walk2_increasing : increasing walk2.
Proof. intros [|[|[|i]]] [|[|[|j]]] a b Ha Hb L; cbn in Ha, Hb; try discriminate; try lia. injection Ha as <-. injection Hb as <-. cbn. lra. Qed.
Lemma id_oriented x : oriented (id_pose x). Proof. unfold oriented, id_pose. cbn. lra. Qed.
Lemma walk2_oriented : all_oriented walk2. Proof. intros e [<-|[<-|[]]]; apply id_oriented. Qed.
Theorem self_alignment_refuted : exists p l, increasing l /\ all_oriented l /\ ap_iterations p = 1%nat /\ align_trajectory mix_turn quat_of p l l = UB.
Proof.
  exists (mkAP 1 1 1 1 1), walk2. split; [exact walk2_increasing|]. split; [exact walk2_oriented|]. split; [reflexivity|]. destruct mix_turn_contracts as (C1 & C2 & _). destruct (align_self mix_turn quat_of C1 C2 quat_of_reads (mkAP 1 1 1 1 1) walk2 walk2_increasing walk2_oriented) as [H _]; [cbn; lia|cbn; lra|cbn; lra|]. apply H. reflexivity.
Qed.
(* a reference whose last stamp occurs twice *)
Theorem interpolation_number_refuted : exists refs l, in_order l /\ all_oriented l /\ (forall t, In t refs -> covered l t) /\ interpolate_trajectory mix_turn quat_of refs l = UB.
Proof.
  exists [1], [(0, id_pose 0); (1, id_pose 1); (1, id_pose 1)]. split; [|split; [|split]].
  - intros [|[|[|[|i]]]] [|[|[|[|j]]]] a b Ha Hb L; cbn in Ha, Hb; try discriminate; try lia; injection Ha as <-; injection Hb as <-; cbn; lra.
  - intros e [<-|[<-|[<-|[]]]]; apply id_oriented.
  - intros t [<-|[]]. exists (0, id_pose 0), (1, id_pose 1). cbn. repeat split; try lra; [left; reflexivity|right; left; reflexivity].
  - apply repeated_last. lra.
Qed.
(* a reference of one pose, asked for the time of that pose *)
Theorem single_pose_refuted : exists t p, covered [(t, p)] t /\ oriented p /\ interpolate_trajectory mix_turn quat_of [t] [(t, p)] = Throw.
Proof. exists 0, (id_pose 0). split; [exists (0, id_pose 0), (0, id_pose 0); cbn; repeat split; try lra; left; reflexivity|]. split; [apply id_oriented|]. apply single_reference. Qed.
(* one frame without features and there are no statistics at all *)
Theorem empty_frame_refuted : exists frames, length frames = 3%nat /\ compute_frame_track_statistics frames = Throw.
Proof. exists [[1]; []; [1]]%Z. split; reflexivity. Qed.

(* ---- cases ---- *)
Example contracts_met : stays_unit mix_turn /\ keeps_ends mix_turn /\ turns_along mix_turn /\ reads_rotation quat_of.
Proof. destruct mix_turn_contracts as (A & B & C). exact (conj A (conj B (conj C quat_of_reads))). Qed.
Example errors_case : exists o, compute_pose_errors mix_turn walk2 walk2 = Ok o /\ length (eo_abs o) = 2%nat /\ forall e, In e (eo_abs o) -> e = iid.
Proof.
  destruct mix_turn_contracts as (C1 & C2 & _). destruct (pose_errors_total mix_turn walk2 walk2 ltac:(discriminate) (increasing_order _ walk2_increasing) (increasing_order _ walk2_increasing)) as [o Ho]. exists o. split; [exact Ho|]. split; [|apply (no_error mix_turn C1 C2 walk2 walk2 o walk2_increasing walk2_oriented (incl_refl _) Ho)].
  destruct (pose_errors_report mix_turn C1 walk2 walk2 o (increasing_order _ walk2_increasing) walk2_oriented Ho) as (f & gs & Hf & K). cbv zeta in K. destruct K as (_ & -> & _). assert (E : filter f walk2 = walk2); [|rewrite E; reflexivity]. cbn [filter walk2]. rewrite (proj2 (Hf (0, id_pose 0) (or_introl eq_refl))), (proj2 (Hf (1, id_pose 1) (or_intror (or_introl eq_refl)))); [reflexivity| |]; exists (0, id_pose 0), (1, id_pose 1); cbn; repeat split; try lra; try (left; reflexivity); right; left; reflexivity.
Qed.
Example alignment_case : exists l', align_to_first_pose mix_turn quat_of walk2 walk2 = Ok l' /\ length l' = 2%nat.
Proof.
  unfold align_to_first_pose, walk2. cbn [advance]. unfold rltb. cbn [fst]. decide_r. unfold at_time. cbn [fst snd]. decide_r. cbn [rbind recompute_trajectory]. eexists. split; reflexivity.
Qed.
Example interpolation_case : exists r, interpolate_trajectory mix_turn quat_of [0; / 2; 1] walk2 = Ok r.
Proof.
  apply interpolate_total; [exact walk2_increasing|cbn; lia|discriminate| |].
  - intros [|[|[|[|i]]]] [|[|[|[|j]]]] s t Hi Hj L; cbn in Hi, Hj; try discriminate; try lia; injection Hi as <-; injection Hj as <-; lra.
  - intros t Ht. exists (0, id_pose 0), (1, id_pose 1). cbn. split; [left; reflexivity|]. split; [right; left; reflexivity|]. destruct Ht as [<-|[<-|[<-|[]]]]; lra.
Qed.
Example length_case : compute_trajectory_length (map snd walk2) = Ok 1.
Proof.
  rewrite length_is; [|discriminate|intros e [<-|[<-|[]]]; apply id_oriented]. f_equal. cbn [map snd walk2 id_pose mp_pos path_length]. unfold vnorm, vsub, vadd, vopp, vdot. replace ((1 + - 0) * (1 + - 0) + (0 + - 0) * (0 + - 0) + (0 + - 0) * (0 + - 0)) with 1 by ring. rewrite sqrt_1. ring.
Qed.
Example tracks_case : exists s, compute_frame_track_statistics [[1; 2]; [2; 3]; [3; 2]]%Z = Ok s /\ ts_tracked s = [[1; 1]; [2; 1]; [2; 3]]%Z /\ ts_bins s = [[2; 0; 0]; [1; 1; 0]; [0; 1; 1]]%nat /\ ts_longest s = 3%Z.
Proof. eexists. split; [reflexivity|]. repeat split. Qed.
Example retention_case : compute_track_retention [(5, 10); (4, 0); (0, 7); (7, 7)]%nat = [None; Some (INR 4 / INR 10); None; Some (INR 7 / INR 7)]. Proof. reflexivity. Qed.
