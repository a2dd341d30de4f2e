(* Properties C95 and C96: metrics and repaired recordings. Proofs in MtProofs.v and RpProofs.v; cases and refutations in MtExamples.v and RpExamples.v. *)
From Coq Require Import String ZArith Reals List.
From Verif Require Import Base Mx Interp Geo CvModel EgModel MsModel MsProofs MsPose MtModel MtSpec MtProofs MtExamples RpModel RpSpec RpProofs RpExamples.
Import ListNotations.

(* C95 *)
Theorem C95_last_messages :
  forall l : list mevent,
    let s := fold_left mstep l mstate0 in
    st_curr s = last_of (poses l) /\ st_prev s = last_but_one (poses l) /\ st_reg s = last_of (regs l) /\ st_path s = last_of (paths l).
Proof. exact (@kept). Qed.
Theorem C95_values :
  forall (s : mstate) (l : list (metric * option R)),
    get_metrics s = Ok l ->
    map fst l =
    [VAR_RX; VAR_RY; VAR_RZ; VAR_TX; VAR_TY; VAR_TZ; OUTLIER_MAX; OUTLIER_IDX; CONSISTENT_NORM; CONSISTENT_ANGL; INSTANT_NORM; INSTANT_ANGL] /\
    published_as l OUTLIER_MAX (Some (fst (var_outlier s))) /\
    published_as l OUTLIER_IDX (Some (IZR (snd (var_outlier s)))) /\
    (forall (a b : npose) (r : list npose),
     option_map (rev (A:=npose)) (st_path s) = Some (a :: b :: r) ->
     published_as l CONSISTENT_NORM (Some (fst (rel_pose a b))) /\ published_as l CONSISTENT_ANGL (snd (rel_pose a b))) /\
    (st_path s = None -> published_as l CONSISTENT_NORM (Some (-1)%R) /\ published_as l CONSISTENT_ANGL (Some (-1)%R)) /\
    (forall (a b : npose) (ca cb : list (option R)),
     st_curr s = Some (a, ca) ->
     st_prev s = Some (b, cb) -> published_as l INSTANT_NORM (Some (fst (rel_pose a b))) /\ published_as l INSTANT_ANGL (snd (rel_pose a b))) /\
    (st_curr s = None \/ st_prev s = None -> published_as l INSTANT_NORM (Some (-1)%R) /\ published_as l INSTANT_ANGL (Some (-1)%R)).
Proof. exact (@same_places). Qed.
Theorem C95_outlier :
  forall (s : mstate) (p : npose) (c : list (option R)),
    st_curr s = Some (p, c) ->
    none_positive c /\ var_outlier s = (0%R, -1) \/ (exists (m : R) (i : nat), largest c m i /\ var_outlier s = (m, Z.of_nat i)).
Proof. exact (@outlier_found). Qed.
Theorem C95_outlier_unknown :
  forall s : mstate, st_curr s = None -> var_outlier s = ((-1)%R, -1).
Proof. exact (@outlier_unknown). Qed.
Theorem C95_relative_pose :
  forall (p1 p2 : npose) (q1 q2 : quat),
    np_ori p1 = Some q1 ->
    np_ori p2 = Some q2 ->
    qunit q1 ->
    qunit q2 ->
    exists a : R,
      angle_between q1 q2 a /\
      fst (rel_pose p1 p2) = vnorm (vsub (np_pos p1) (np_pos p2)) /\
      snd (rel_pose p1 p2) = Some (if Rle_dec 0 (qdot4 q1 q2) then a else (2 * PI - a)%R).
Proof. exact (@relative_pose). Qed.
Theorem C95_raises :
  forall s : mstate,
    (forall c : list (option R), st_reg s = Some c -> Datatypes.length c = 36%nat) ->
    get_metrics s = Throw <-> (exists l : list npose, st_path s = Some l /\ (Datatypes.length l < 2)%nat).
Proof. exact (@raises). Qed.
Theorem C95_labels_swapped :
  forall (s : mstate) (l : list (metric * option R)) (arr : list (option R)) (c : cmat),
    st_reg s = Some arr ->
    ros_cov arr c ->
    get_metrics s = Ok l ->
    firstn 6 l =
    [(VAR_RX, c 3%nat 3%nat); (VAR_RY, c 4%nat 4%nat); (VAR_RZ, c 5%nat 5%nat); (VAR_TX, c 0%nat 0%nat); (VAR_TY, c 1%nat 1%nat);
     (VAR_TZ, c 2%nat 2%nat)].
Proof. exact (@labels_swapped). Qed.
Theorem C95_labels_refuted :
  exists (s : mstate) (l : list (metric * option R)) (arr : list (option R)) (c : cmat),
      st_reg s = Some arr /\ ros_cov arr c /\ get_metrics s = Ok l /\ ~ published_as l VAR_RX (c 0%nat 0%nat).
Proof. exact (@labels_refuted). Qed.
Theorem C95_one_pose_refuted :
  exists l : list mevent, get_metrics (fold_left mstep l mstate0) = Throw.
Proof. exact (@one_pose_refuted). Qed.
Theorem C95_opposite_refuted :
  exists (p1 p2 : npose) (q1 q2 : quat),
      np_ori p1 = Some q1 /\ np_ori p2 = Some q2 /\ qunit q1 /\ qunit q2 /\ angle_between q1 q2 0 /\ snd (rel_pose p1 p2) = Some (2 * PI)%R.
Proof. exact (@opposite_refuted). Qed.
Theorem C95_nan_orientation_refuted :
  exists p1 p2 : npose, np_ori p1 = None /\ snd (rel_pose p1 p2) = Some 0%R.
Proof. exact (@nan_orientation_refuted). Qed.
Theorem C95_torn_refuted :
  exists (l : list mevent) (p : npose * list (option R)) (s : mstate),
      s = set_prev (fold_left mstep l mstate0) /\
      set_curr p s = fold_left mstep (l ++ [EPose p]) mstate0 /\
      fst (instant (fold_left mstep l mstate0)) = 2%R /\ fst (instant (set_curr p s)) = 3%R /\ instant s = (0%R, Some 0%R).
Proof. exact (@torn_refuted). Qed.

(* C96 *)
Theorem C96_only_stamps :
  forall (t : string) (l : list rmsg) (last : Z) (n : nat), map but_stamp (fst (repair t l last n)) = map but_stamp l.
Proof. exact (@kept_all). Qed.
Theorem C96_untouched :
  forall (t : string) (l : list rmsg) (last : Z) (n i : nat) (m : rmsg),
    nth_error l i = Some m ->
    ~ part_of (r_topic m) t \/ r_stamp m = None \/ (exists s : Z, r_stamp m = Some s /\ s <> 0) -> nth_error (fst (repair t l last n)) i = Some m.
Proof. exact (@untouched). Qed.
Theorem C96_true_kept :
  forall (l : list rmsg) (i : nat) (s : Z),
    clear_topics l -> nth_error (stamps l) i = Some s -> s <> 0 -> nth_error (stamps (repaired l)) i = Some s.
Proof. exact (@true_kept). Qed.
Theorem C96_missing_after :
  forall (l : list rmsg) (a : list Z) (s : Z) (k : nat) (b : list Z),
    clear_topics l ->
    stamps l = a ++ s :: repeat 0 (S k) ++ b ->
    s <> 0 -> nth_error (stamps (repaired l)) (Datatypes.length a + S k) = Some (s + Z.of_nat (S k) * period).
Proof. exact (@missing_after). Qed.
Theorem C96_missing_first :
  forall (l : list rmsg) (k : nat) (b : list Z),
    clear_topics l -> stamps l = repeat 0 (S k) ++ b -> nth_error (stamps (repaired l)) k = Some (Z.of_nat (S k) * period).
Proof. exact (@missing_first). Qed.
Theorem C96_none_missing :
  forall (l : list rmsg) (s : Z), clear_topics l -> (forall s0 : Z, In s0 (stamps l) -> 0 <= s0) -> In s (stamps (repaired l)) -> 0 < s.
Proof. exact (@none_missing). Qed.
Theorem C96_counted :
  forall l : list rmsg, clear_topics l -> corrected l = Datatypes.length (filter (Z.eqb 0) (stamps l)).
Proof. exact (@counted). Qed.
Theorem C96_increasing :
  forall l : list rmsg,
    clear_topics l -> (forall s : Z, In s (stamps l) -> 0 <= s) -> increasing (stamps (repaired l)) <-> room period (stamps l).
Proof. exact (@increases_iff). Qed.
Theorem C96_again :
  forall l : list rmsg, clear_topics l -> (forall s : Z, In s (stamps l) -> 0 <= s) -> repaired (repaired l) = repaired l.
Proof. exact (@again_same). Qed.
Theorem C96_goes_back_refuted :
  exists l : list rmsg,
      clear_topics l /\
      (forall (a : list Z) (x y : Z) (b : list Z), filter (fun s : Z => negb (s =? 0)) (stamps l) = a ++ x :: y :: b -> x < y) /\
      ~ increasing (stamps (repaired l)).
Proof. exact (@goes_back_refuted). Qed.
Theorem C96_other_topic_refuted :
  exists (m : rmsg) (l : list rmsg),
      r_topic m <> "/os_cloud_node/points"%string /\ repaired [m] <> [m] /\ stamps (repaired (m :: l)) <> stamps (repaired l).
Proof. exact (@other_topic_refuted). Qed.
Theorem C96_leading_refuted :
  exists l : list rmsg, clear_topics l /\ stamps l = [0; 1600000000000000000] /\ stamps (repaired l) = [100000000; 1600000000000000000].
Proof. exact (@leading_refuted). Qed.

Print Assumptions C95_last_messages.
Print Assumptions C95_values.
Print Assumptions C95_outlier.
Print Assumptions C95_outlier_unknown.
Print Assumptions C95_relative_pose.
Print Assumptions C95_raises.
Print Assumptions C95_labels_swapped.
Print Assumptions C95_labels_refuted.
Print Assumptions C95_one_pose_refuted.
Print Assumptions C95_opposite_refuted.
Print Assumptions C95_nan_orientation_refuted.
Print Assumptions C95_torn_refuted.
Print Assumptions C96_only_stamps.
Print Assumptions C96_untouched.
Print Assumptions C96_true_kept.
Print Assumptions C96_missing_after.
Print Assumptions C96_missing_first.
Print Assumptions C96_none_missing.
Print Assumptions C96_counted.
Print Assumptions C96_increasing.
Print Assumptions C96_again.
Print Assumptions C96_goes_back_refuted.
Print Assumptions C96_other_topic_refuted.
Print Assumptions C96_leading_refuted.
