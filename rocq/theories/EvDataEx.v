(* Reports of the evaluation scripts: refutations and cases that meet the hypotheses. *)
From Coq Require Import Reals List ZArith Lra Lia Bool.
From Verif Require Import Base Interp Geo EgModel EgProofs MsModel RoModel RoSpec RcModel RoProofs BfModel EvModel EvSpec EvProofs EvPose EvMove EvInter EvAlign EvSelf EvTrack EvExamples EvData EvDataSpec EvDataProofs EvDataMore.
Import ListNotations.
Open Scope R_scope.

(* functions that meet the contracts *)
Definition axis_of (m : mat3) : vec3 * R := let '(a, u) := angle_axis (quat_of m) in (u, a).
Definition axis_of_quat (q : quat) : vec3 * R := axis_of (qmat (qnormalise q)).
Lemma axis_of_reads : reads_axis axis_of.
Proof. intros m M. unfold axis_of. destruct (quat_of_spec m M) as [E U]. pose proof (angle_axis_spec (quat_of m) U) as S. destruct (angle_axis (quat_of m)) as [a u]. destruct S as (A & V & X & _). rewrite E in X. split; [exact V|]. split; [rewrite Rabs_pos_eq by lra; lra|exact X]. Qed.
Lemma axis_of_quat_reads : reads_quaternion axis_of_quat.
Proof. intros q Q. apply axis_of_reads. apply qmat_proper. apply qnormalise_unit. exact Q. Qed.
Example report_contracts : stays_unit mix_turn /\ keeps_ends mix_turn /\ turns_along mix_turn /\ reads_rotation quat_of /\ reads_axis axis_of /\ reads_quaternion axis_of_quat.
Proof. destruct contracts_met as (A & B & C & D). repeat split; try assumption; try apply A; try apply B; try apply D; try apply axis_of_reads; try apply axis_of_quat_reads; assumption. Qed.
Definition the_report := compute_pose_data mix_turn quat_of axis_of axis_of_quat.
Definition params0 : align_params := mkAP 1 1 1 1 1.

Definition msg (s : Z) (x : R) : odom := mkOd s 0 (id_pose x) (x, 0, 0) v0.
Lemma stamp_msg s x : stamp_of (msg s x) = IZR s. Proof. unfold stamp_of, msg. cbn [od_sec od_nsec]. field. Qed.
Definition truth : list odom := [msg 0 0; msg 1 1; msg 2 2].
Definition estimate : list odom := [msg 0 0; msg 1 2; msg 5 2].
Definition later : list odom := [msg 8 0; msg 9 1].
Definition once : list odom := [msg 1 1; msg 7 1].
Ltac stamps := rewrite ?stamp_msg in *.
Lemma strictly_msgs l : (forall i j a b, nth_error l i = Some a -> nth_error l j = Some b -> (i < j)%nat -> stamp_of a < stamp_of b) -> strictly l.
Proof. intros H i j a b Ha Hb L. unfold stamped in *. rewrite nth_error_map in Ha, Hb. destruct (nth_error l i) as [x|] eqn:Ex; [|discriminate]. destruct (nth_error l j) as [y|] eqn:Ey; [|discriminate]. injection Ha as <-. injection Hb as <-. cbn [fst]. apply (H i j); assumption. Qed.
Ltac go_strictly := apply strictly_msgs; intros [|[|[|[|i]]]] [|[|[|[|j]]]] a b Ha Hb L; cbn in Ha, Hb; try discriminate; try lia; injection Ha as <-; injection Hb as <-; rewrite !stamp_msg; lra.
Lemma truth_strictly : strictly truth. Proof. go_strictly. Qed.
Lemma estimate_strictly : strictly estimate. Proof. go_strictly. Qed.
Lemma later_strictly : strictly later. Proof. go_strictly. Qed.
Lemma once_strictly : strictly once. Proof. go_strictly. Qed.
Lemma all_posed l : (forall m, In m l -> exists s x, m = msg s x) -> posed l.
Proof. intros H m Hm. destruct (H m Hm) as (s & x & ->). apply id_oriented. Qed.
Ltac go_posed := apply all_posed; intros m Hm; cbn in Hm; intuition (subst; eauto).
Lemma truth_posed : posed truth. Proof. go_posed. Qed.
Lemma estimate_posed : posed estimate. Proof. go_posed. Qed.
Lemma once_posed : posed once. Proof. go_posed. Qed.
Lemma whole_reference gt : reference None gt gt.
Proof. exists (fun _ => true). split; [cbn; tauto|symmetry; apply filter_all; reflexivity]. Qed.
Lemma truth_covers t : covered (stamped od_pose truth) t <-> 0 <= t <= 2.
Proof.
  split.
  - intros (a & b & Ha & Hb & H). cbn in Ha, Hb. destruct Ha as [<-|[<-|[<-|[]]]], Hb as [<-|[<-|[<-|[]]]]; cbn [fst] in H; rewrite ?stamp_msg in H; lra.
  - intros H. exists (stamp_of (msg 0 0), id_pose 0), (stamp_of (msg 2 2), id_pose 2). split; [left; reflexivity|]. split; [right; right; left; reflexivity|]. cbn [fst]. rewrite !stamp_msg. exact H.
Qed.

(* a report of two estimates, one of them the truth itself, aligned or not *)
Example report_case first : exists d e e', the_report None first false params0 truth [truth; estimate] = Ok d /\ nth_error (pr_entries d) 0 = Some e /\ nth_error (pr_entries d) 1 = Some e' /\ es_rmse1 (pe_ape e) = Some 0 /\ length (es_norm1 (pe_ape e')) = 2%nat /\ nth_error (es_norm1 (pe_ape e')) 1 = Some 1.
Proof.
  destruct report_contracts as (C1 & C2 & C3 & C4 & C5 & C6). assert (Po : forall l, In l [truth; estimate] -> posed l) by (intros l [<-|[<-|[]]]; [apply truth_posed|apply estimate_posed]).
  destruct (proj2 (pose_report_exists mix_turn quat_of axis_of axis_of_quat None first params0 truth [truth; estimate] (strictly_ordered _ truth_strictly) ltac:(intros l [<-|[<-|[]]]; apply strictly_ordered; [apply truth_strictly|apply estimate_strictly]))) as [d Hd].
  { exists truth. split; [apply whole_reference|]. split; [discriminate|]. intros l [<-|[<-|[]]]; exists (msg 0 0); (split; [left; reflexivity|]); apply truth_covers; rewrite stamp_msg; lra. }
  exists d. destruct (pose_report_says mix_turn quat_of axis_of axis_of_quat C1 C2 C4 C5 C6 None first false params0 truth _ d ltac:(cbn; lra) ltac:(cbn; lra) (strictly_ordered _ truth_strictly) truth_posed Po Hd) as (ref & Rf & _ & _ & _ & _ & S). assert (ref = truth) as -> by apply (part_unique _ _ _ _ Rf (whole_reference truth)).
  destruct (S 0%nat truth eq_refl) as (e & _ & _ & He & _). destruct (S 1%nat estimate eq_refl) as (e' & kept & n & He' & K & Ne & Mn & Says & N1 & N2). exists e, e'. split; [exact Hd|]. split; [exact He|]. split; [exact He'|]. split.
  - apply (recorded_no_error mix_turn quat_of axis_of axis_of_quat C1 C2 C4 C5 C6 None first params0 truth _ d 0%nat truth e ltac:(cbn; lra) ltac:(cbn; lra) truth_strictly truth_posed Po Hd eq_refl He). intros m Hm. exists m. split; [exact Hm|]. repeat split.
  - assert (Ek : kept = [msg 0 0; msg 1 2]). { destruct K as (f & Hf & ->). unfold estimate in *. cbn [filter]. assert (F0 : f (msg 0 0) = true) by (apply Hf; [left; reflexivity|apply truth_covers; rewrite stamp_msg; lra]). assert (F1 : f (msg 1 2) = true) by (apply Hf; [right; left; reflexivity|apply truth_covers; rewrite stamp_msg; lra]). rewrite F0, F1. destruct (f (msg 5 2)) eqn:F2; [|reflexivity]. exfalso. apply Hf in F2; [|right; right; left; reflexivity]. apply truth_covers in F2. rewrite stamp_msg in F2. lra. }
    subst kept. assert (Own : forall s x g, In (msg s x) truth -> value_at pose_to_matrix (pose_between mix_turn) (stamped od_pose truth) (stamp_of (msg s x)) g -> g = pose_to_matrix (id_pose x)). { intros s x g Hin V. apply (value_own mix_turn C2 _ (stamp_of (msg s x)) (id_pose x) g truth_strictly (posed_oriented _ truth_posed)); [|exact V]. apply stamped_in. exists (msg s x). split; [exact Hin|reflexivity]. }
    assert (V1 : forall g, value_at pose_to_matrix (pose_between mix_turn) (stamped od_pose truth) (stamp_of (msg 1 2)) g -> g = pose_to_matrix (id_pose 1)). { intros g V. apply (Own 1%Z 1 g); [right; left; reflexivity|]. rewrite stamp_msg in *. exact V. }
    assert (Nn : n = iid). { destruct first; [|apply N1; reflexivity]. destruct (N2 eq_refl) as (m & rest & g & E & V & En). injection E as <- <-. pose proof (Own 0%Z 0 g (or_introl eq_refl) V) as ->. assert (Rm : rigid (matrix_of (msg 0 0))) by (apply motion_rigid, pose_motion, id_oriented). rewrite <- (imul_id_r n). rewrite <- (imul_inv_r (matrix_of (msg 0 0)) Rm), imul_assoc, En. reflexivity. }
    subst n. destruct Says as (gs & Lg & _ & _ & L1 & _ & _ & _ & A & _). split; [exact L1|]. destruct (nth_error gs 1) as [g|] eqn:Eg; [|apply nth_error_None in Eg; cbn in Lg; lia]. destruct (A 1%nat (msg 1 2) g eq_refl Eg) as (V & E & _). rewrite E, (V1 g V), imul_id_l. f_equal. unfold dist. cbn. unfold vnorm. cbn. replace ((2 + - (1)) * (2 + - (1)) + (0 + - 0) * (0 + - 0) + (0 + - 0) * (0 + - 0)) with 1 by ring. apply sqrt_1.
Qed.
(* an estimate from another time, and there is no report of any of them *)
Theorem other_time_refuted : exists gt good bad, strictly gt /\ posed gt /\ strictly bad /\ (exists d, the_report None false false params0 gt [good] = Ok d) /\ (forall first d, the_report None first false params0 gt [good; bad] <> Ok d).
Proof.
  exists truth, estimate, later. split; [apply truth_strictly|]. split; [apply truth_posed|]. split; [apply later_strictly|]. split.
  - apply pose_report_exists; [apply strictly_ordered, truth_strictly|intros l [<-|[]]; apply strictly_ordered, estimate_strictly|]. exists truth. split; [apply whole_reference|]. split; [discriminate|]. intros l [<-|[]]. exists (msg 0 0). split; [left; reflexivity|]. apply truth_covers. rewrite stamp_msg. lra.
  - intros first d H. destruct (proj1 (pose_report_exists mix_turn quat_of axis_of axis_of_quat None first params0 truth [estimate; later] (strictly_ordered _ truth_strictly) ltac:(intros l [<-|[<-|[]]]; apply strictly_ordered; [apply estimate_strictly|apply later_strictly])) (ex_intro _ d H)) as (ref & Rf & _ & C). assert (ref = truth) as -> by apply (part_unique _ _ _ _ Rf (whole_reference truth)).
    destruct (C later) as (m & Hm & Cm); [right; left; reflexivity|]. apply truth_covers in Cm. destruct Hm as [<-|[<-|[]]]; rewrite stamp_msg in Cm; lra.
Qed.
(* velocities are reported all the same, without a number for that estimate *)
Theorem other_time_twist : exists es e, compute_twist_data None truth [later] = Ok es /\ nth_error es 0 = Some e /\ te_t e = [] /\ es_rmse1 (te_ae e) = None.
Proof.
  assert (Ol : forall msgs, In msgs [later] -> ordered msgs) by (intros l [<-|[]]; apply strictly_ordered, later_strictly). destruct (twist_report_exists None truth [later] (strictly_ordered _ truth_strictly) Ol) as [es Hes]; [exists truth; split; [apply whole_reference|discriminate]|]. destruct (twist_report_says None truth [later] es (strictly_ordered _ truth_strictly) ltac:(discriminate) Hes) as (ref & Rf & _ & _ & S). assert (ref = truth) as -> by apply (part_unique _ _ _ _ Rf (whole_reference truth)).
  destruct (S 0%nat later eq_refl) as (e & kept & He & K & T & _ & _ & gl & ga & _ & _ & _ & _ & L & _ & _ & _ & _ & _ & Rm & _). assert (kept = []) as ->. { apply (part_none _ _ _ K). intros m Hm C. apply truth_covers in C. destruct Hm as [<-|[<-|[]]]; rewrite stamp_msg in C; lra. } exists es, e. split; [exact Hes|]. split; [exact He|]. split; [exact T|]. destruct (es_rmse1 (te_ae e)) as [r|]; [|reflexivity]. destruct Rm as (N & _). exfalso. apply N. apply length_zero_iff_nil. exact L.
Qed.
(* one pose within the reference: a report whose relative part is no number *)
Theorem relative_number_refuted : exists gt msgs d e, strictly gt /\ posed gt /\ the_report None false false params0 gt [msgs] = Ok d /\ nth_error (pr_entries d) 0 = Some e /\ es_rmse1 (pe_ape e) = Some 0 /\ es_rmse1 (pe_rpe e) = None.
Proof.
  destruct report_contracts as (C1 & C2 & C3 & C4 & C5 & C6). assert (Po : forall l, In l [once] -> posed l) by (intros l [<-|[]]; apply once_posed). destruct (proj2 (pose_report_exists mix_turn quat_of axis_of axis_of_quat None false params0 truth [once] (strictly_ordered _ truth_strictly) ltac:(intros l [<-|[]]; apply strictly_ordered, once_strictly))) as [d Hd].
  { exists truth. split; [apply whole_reference|]. split; [discriminate|]. intros l [<-|[]]. exists (msg 1 1). split; [left; reflexivity|]. apply truth_covers. rewrite stamp_msg. lra. }
  destruct (pose_report_says mix_turn quat_of axis_of axis_of_quat C1 C2 C4 C5 C6 None false false params0 truth _ d ltac:(cbn; lra) ltac:(cbn; lra) (strictly_ordered _ truth_strictly) truth_posed Po Hd) as (ref & Rf & _ & _ & _ & _ & S). assert (ref = truth) as -> by apply (part_unique _ _ _ _ Rf (whole_reference truth)). destruct (S 0%nat once eq_refl) as (e & kept & n & He & K & Ne & Mn & Says & N1 & _). specialize (N1 eq_refl eq_refl). subst n.
  assert (Ek : kept = [msg 1 1]). { destruct K as (f & Hf & ->). unfold once in *. cbn [filter]. assert (F1 : f (msg 1 1) = true) by (apply Hf; [left; reflexivity|apply truth_covers; rewrite stamp_msg; lra]). rewrite F1. destruct (f (msg 7 1)) eqn:F2; [|reflexivity]. exfalso. apply Hf in F2; [|right; left; reflexivity]. apply truth_covers in F2. rewrite stamp_msg in F2. lra. }
  subst kept. exists truth, once, d, e. split; [apply truth_strictly|]. split; [apply truth_posed|]. split; [exact Hd|]. split; [exact He|]. destruct Says as (gs & Lg & _ & _ & L1 & _ & L3 & _ & A & _ & R1 & _ & R3 & _). split.
  - destruct (nth_error gs 0) as [g|] eqn:Eg; [|apply nth_error_None in Eg; cbn in Lg; lia]. destruct (A 0%nat (msg 1 1) g eq_refl Eg) as (V & E & _). assert (g = pose_to_matrix (id_pose 1)) as ->. { apply (value_own mix_turn C2 _ (stamp_of (msg 1 1)) (id_pose 1) g truth_strictly (posed_oriented _ truth_posed)); [|exact V]. apply stamped_in. exists (msg 1 1). split; [right; left; reflexivity|reflexivity]. }
    rewrite imul_id_l in E. unfold matrix_of in E. cbn [od_pose msg] in E. rewrite dist_self in E. destruct (es_norm1 (pe_ape e)) as [|x [|y l]]; try discriminate. cbn in E. injection E as ->. destruct (es_rmse1 (pe_ape e)) as [r|]; [|cbn in R1; discriminate]. f_equal. apply (root_zero [0] r R1). intros x [<-|[]]. reflexivity.
  - destruct (es_rmse1 (pe_rpe e)) as [r|]; [|reflexivity]. destruct R3 as (N & _). exfalso. apply N. apply length_zero_iff_nil. exact L3.
Qed.
(* a window that leaves out a part of the reference *)
Example window_case : exists d, the_report (Some (1, 1)) true false params0 truth [estimate] = Ok d /\ forall ref, reference (Some (1, 1)) truth ref -> ref = [msg 1 1; msg 2 2].
Proof.
  assert (W : reference (Some (1, 1)) truth [msg 1 1; msg 2 2]). { exists (fun m => Z.leb 1 (od_sec m)). split; [|reflexivity]. intros m Hm. cbn [wanted]. split.
    - intros H. exists (stamp_of (msg 0 0), id_pose 0). split; [reflexivity|]. cbn [fst]. rewrite stamp_msg. destruct Hm as [<-|[<-|[<-|[]]]]; cbn in H; try discriminate; rewrite stamp_msg; lra.
    - intros (x & Hx & H). cbn in Hx. injection Hx as <-. cbn [fst] in H. rewrite stamp_msg in H. destruct Hm as [<-|[<-|[<-|[]]]]; rewrite stamp_msg in H; cbn; try reflexivity. lra. }
  destruct (proj2 (pose_report_exists mix_turn quat_of axis_of axis_of_quat (Some (1, 1)) true params0 truth [estimate] (strictly_ordered _ truth_strictly) ltac:(intros l [<-|[]]; apply strictly_ordered, estimate_strictly))) as [d Hd].
  - exists [msg 1 1; msg 2 2]. split; [exact W|]. split; [discriminate|]. intros l [<-|[]]. exists (msg 1 2). split; [right; left; reflexivity|]. exists (stamp_of (msg 1 1), id_pose 1), (stamp_of (msg 2 2), id_pose 2). split; [left; reflexivity|]. split; [right; left; reflexivity|]. cbn [fst]. rewrite !stamp_msg. lra.
  - exists d. split; [exact Hd|]. intros ref Rf. apply (part_unique _ _ _ _ Rf W).
Qed.

(* the stamp is seconds and nanoseconds, in seconds, and keeps the order of times *)
Theorem stamp_seconds m : stamp_of m * 1000000000 = IZR (od_sec m * 1000000000 + od_nsec m).
Proof. unfold stamp_of. rewrite plus_IZR, mult_IZR. field. Qed.
Theorem stamp_order a b : (0 <= od_nsec a < 1000000000)%Z -> (0 <= od_nsec b < 1000000000)%Z -> stamp_of a < stamp_of b <-> (od_sec a < od_sec b \/ od_sec a = od_sec b /\ od_nsec a < od_nsec b)%Z.
Proof.
  intros A B. assert (X : stamp_of a < stamp_of b <-> IZR (od_sec a * 1000000000 + od_nsec a) < IZR (od_sec b * 1000000000 + od_nsec b)) by (rewrite <- !stamp_seconds; split; intros; lra). rewrite X. split; intros H; [apply lt_IZR in H|apply IZR_lt]; lia.
Qed.
Example stamp_case : stamp_of (mkOd 3 999999999 (id_pose 0) v0 v0) < stamp_of (mkOd 4 0 (id_pose 0) v0 v0).
Proof. apply stamp_order; cbn; lia. Qed.
