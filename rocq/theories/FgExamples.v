(* Figures and summary of the evaluation: refutations and cases that meet the hypotheses. *)
From Coq Require Import String ZArith List Bool Reals Lra Lia.
From Verif Require Import Base Interp Geo EgModel EgProofs MsModel RoModel RoSpec RcModel RoProofs BfModel EvModel EvSpec EvProofs EvPose EvMove EvInter EvAlign EvSelf EvTrack EvExamples EvData EvDataSpec EvDataProofs EvDataMore EvDataEx FgModel FgSpec FgProofs FgSave.
Import ListNotations.
Open Scope R_scope.
Local Notation len := List.length.

Theorem colours_differ : NoDup default_colours /\ len default_colours = 17%nat.
Proof. split; [|reflexivity]. unfold default_colours. repeat (constructor; [cbn; intuition congruence|]). constructor. Qed.
Definition empty_track : track := mkTrack [] [] [] [] 0.
Definition no_estimates : pose_report := mkPR empty_track [].
(* the title of a window is taken away with the axes it was put on *)
Theorem no_titles o names d figs w a : plot_pose o names d = Ok figs -> In w figs -> In a (fg_axes w) -> ax_title a = ""%string.
Proof.
  intros H Hw Ha. apply pose_windows in H. destruct H as [_ [h ->]]. destruct Hw as [<-|[<-|[]]]; unfold G in Ha; cbn [fg_axes] in Ha; apply in_map_iff in Ha; destruct Ha as (i & <- & _); reflexivity.
Qed.
Theorem titled_refuted : ~ forall o names d figs, plot_pose o names d = Ok figs -> exists w a, In w figs /\ In a (fg_axes w) /\ ax_title a = "Position"%string.
Proof.
  intros H. destruct (pose_drawn_when default_opts [] no_estimates) as [figs E]; [repeat split|constructor|cbn; lia|]. destruct (H _ _ _ _ E) as (w & a & Hw & Ha & T). rewrite (no_titles _ _ _ _ w a E Hw Ha) in T. discriminate.
Qed.
(* a unit other than deg is written on the label and not converted to *)
Theorem unit_taken_refuted : exists f l, f * PI = 180 /\ angles_in "deg" l = times f l /\ angles_in "degrees" l <> times f l.
Proof.
  exists (180 / PI), [PI]. assert (E : PI * (180 / PI) = 180) by (field; apply PI_neq0). split; [field; apply PI_neq0|]. split; [cbn; unfold rad2deg; f_equal; field; apply PI_neq0|]. cbn. intros H. injection H as H. pose proof PI_4. lra.
Qed.
(* the cells of absolute errors of angular velocities are not all called the same *)
Theorem angular_labels_refuted : ~ forall o names g es figs, plot_twist o names g es = Ok figs -> exists w, nth_error figs 1 = Some w /\
  forall row, (row < 4)%nat -> exists legend curves, shows w row 1 (caption ["AE"; "RE"] ["\omega_x"; "\omega_y"; "\omega_z"] "Angular Speed" (" " ^^ op_angle o ^^ " /s") row 1)%string legend curves.
Proof.
  intros H. destruct (twist_drawn_when default_opts [] (mkTT [] [] [] [] []) []) as [figs E]; [repeat split|constructor|cbn; lia|]. destruct (H _ _ _ _ _ E) as (w & Hw & S). destruct (S 2%nat ltac:(lia)) as (lg & cs & a & A & _ & L & _).
  apply velocities_drawn in E. destruct E as (w1 & w2 & -> & _ & _ & _ & T). cbn in Hw. injection Hw as <-. destruct (T (180 / PI) ltac:(left; split; [reflexivity|field; apply PI_neq0])) as [_ Sh]. destruct (Sh 2%nat 1%nat ltac:(lia) ltac:(lia)) as (a' & A' & _ & L' & _).
  assert (a' = a) as -> by (apply A; apply A'; reflexivity). rewrite L in L'. discriminate.
Qed.
(* two estimates, with and without times counted from zero, alignment, pictures *)
Example saved_case zero first save close : let o := mkOpts zero "deg" default_colours "k--" save ["fig"; "png"]%string close in
  exists out, plot_and_save mix_turn quat_of axis_of axis_of_quat o None first false params0 ["one"; "two"]%string truth [truth; estimate] = Ok out /\ len (ou_drawn out) = 7%nat /\ len (ou_text out) = 22%nat /\ len (ou_saved out) = (if save then 14 else 0)%nat.
Proof.
  intros o. destruct (report_case first) as (d & e1 & e2 & Hd & _). destruct (proj2 (saves_exactly mix_turn quat_of axis_of axis_of_quat o None first false params0 truth [truth; estimate] ["one"; "two"]%string)) as [out H].
  { split; [exists d; exact Hd|]. split; [reflexivity|]. cbn. lia. }
  exists out. split; [exact H|]. pose proof H as H'. apply outcome_is in H'. destruct H' as (d0 & g0 & es0 & dd & g & es & f1 & f2 & f3 & lines & _ & _ & _ & _ & P1 & P2 & P3 & D & B & T & _ & _ & _).
  apply pose_windows in P1. destruct P1 as [_ [h ->]]. apply twist_windows in P2. destruct P2 as [_ [h' ->]]. apply trajectory_windows in P3. cbv zeta in P3. destruct P3 as (_ & _ & _ & ->).
  split; [rewrite D; reflexivity|]. split.
  - rewrite T. inversion B as [|n1 q1 t1 l1 ns qs ts ls B1 B2]; subst. inversion B2 as [|n2 q2 t2 l2 ns' qs' ts' ls' B3 B4]; subst. inversion B4; subst. destruct B1 as (? & ? & ? & ? & _ & _ & _ & _ & ->), B3 as (? & ? & ? & ? & _ & _ & _ & _ & ->). reflexivity.
  - unfold plot_and_save in H. repeat match type of H with rbind ?x _ = _ => let y := fresh "y" in destruct x as [y| |] eqn:?; cbn [rbind] in H; try discriminate end. apply (f_equal (fun r => match r with Ok x => x | _ => out end)) in H. cbv beta iota zeta in H. subst out. cbn [ou_drawn ou_saved] in *. unfold o. cbn [op_save op_types]. destruct save; [|reflexivity]. cbn [flat_map]. rewrite !app_length, !map_length, !combine_length. rewrite D. reflexivity.
Qed.
(* a name too few, a name too many *)
Example names_refused o first names : len names <> 2%nat -> ~ exists out, plot_and_save mix_turn quat_of axis_of axis_of_quat o None first false params0 names truth [truth; estimate] = Ok out.
Proof. intros N H. apply saves_exactly in H. destruct H as (_ & L & _). apply N. exact L. Qed.
(* more estimates than colours *)
Theorem many_estimates_refuted : ~ forall gt odoms names d, compute_pose_data mix_turn quat_of axis_of axis_of_quat None false false params0 gt odoms = Ok d -> len names = len odoms ->
  exists out, plot_and_save mix_turn quat_of axis_of axis_of_quat default_opts None false false params0 names gt odoms = Ok out.
Proof.
  intros H. assert (X : exists d, compute_pose_data mix_turn quat_of axis_of axis_of_quat None false false params0 truth (repeat truth 18) = Ok d).
  { apply pose_report_exists; [apply strictly_ordered, truth_strictly|intros l Hl; apply repeat_spec in Hl; subst; apply strictly_ordered, truth_strictly|]. exists truth. split; [apply whole_reference|]. split; [discriminate|]. intros l Hl. apply repeat_spec in Hl. subst. exists (msg 0 0). split; [left; reflexivity|]. apply truth_covers. rewrite stamp_msg. lra. }
  destruct X as [d Hd]. specialize (H truth _ (repeat "e"%string 18) d Hd ltac:(reflexivity)). apply saves_exactly in H. destruct H as (_ & _ & L). cbn in L. lia.
Qed.
(* a unit factor exists for both units *)
Example units_met : per_radian "deg" (180 / PI) /\ per_radian "rad" 1.
Proof. split; [left; split; [reflexivity|field; apply PI_neq0]|right; split; reflexivity]. Qed.

(* the window of the two later messages: their stamps, velocities and lengths of velocities *)
Example reference_case : exists g, twist_reference (Some (1, 1)) truth = Ok g /\ tt_lin g = [(1, 0, 0); (2, 0, 0)] /\ tt_rates g = [0; 0] /\ tt_speeds g = [1; 2].
Proof.
  destruct (twist_reference (Some (1, 1)) truth) as [g| |] eqn:E; [| |]; try (exfalso; revert E; unfold twist_reference, truth; cbn [stamped map time_filter rbind]; cbv zeta; discriminate).
  exists g. split; [reflexivity|]. destruct (reference_columns _ _ _ E) as (ref & Rf & _ & L & A & S & Q). destruct window_case as (_ & _ & W). rewrite (W ref Rf) in *. rewrite L, S, Q. cbn [map msg od_lin od_ang].
  split; [reflexivity|]. unfold vnorm, v0. split; repeat f_equal; cbn; try (apply sqrt_lem_1; lra); replace (0 * 0 + 0 * 0 + 0 * 0) with 0 by ring; try apply sqrt_0.
Qed.
