(* Concrete cases for the stereo front end: non-trivial instances of the hypotheses and refutations. *)
From Verif Require Import Base GmModel GmSpec GmStereo GmReady StModel StSpec StFilter StTrack StMatch StRun StEmit StCost StLink.
From Coq Require Import Lqa.

Definition P (x y : Z) : pt := Pt (inject_Z x) (inject_Z y).
Definition K (x y : Z) : kp := Kp (P x y) 7.
(* a 12 x 9 grey image whose pixel values are all different in a neighbourhood *)
Definition img (s : Z) : image := Im 12 9 true (fun r c => (17 * r + 5 * (c + s) + (c + s) * (c + s)) mod 256).
Definition sadm (f : mfilter) : matcher := Mk (3, 3) 1 f (8 # 10) gen_sad.
Definition cfg (f : mfilter) : tcfg := Tcfg 1 (sadm f) 4 100.
Definition det (l r : list kp) (im : image) : list kp := if ipix im 0 0 =? 0 then l else r.
(* the flow shifts every point right by one; a point at x = 9 is lost *)
Definition flow (_ _ : image) (l : list pt) : list (pt * Z) :=
  map (fun p => (Pt (px p + 1) (py p), if Qeq_bool (px p) 9 then 0 else 1)) l.
Definition L0 := img 0.
Definition R0 := img 2.
Definition fr (l r : list kp) (d : option sdf) : frame := Frame L0 R0 d (det l r) flow.
Definition frames3 : list frame :=
  [ fr [K 6 3; K 8 5] [K 4 3; K 6 5] None;
    fr [K 6 3; K 5 6] [K 4 3; K 3 6] (Some (sdf_make 10 2 20 5));
    fr [K 4 2] [K 2 2] (Some (sdf_make 10 2 20 5)) ].
Lemma flow_frames3 : Forall flow_ok frames3.
Proof. repeat constructor; intros a b l; apply map_length. Qed.
Definition run3 := track_run (cfg Bidirectional) tst0 frames3.
Example run3_ids : map (fun r => match r with Ok (o, s) => (ids o, st_tracked s, st_new s) | _ => ([], -1, -1) end) (snd run3) =
  [([0; 1], 0, 2); ([0; 1; 2], 2, 1); ([0; 2; 3], 2, 1)].
Proof. vm_compute. reflexivity. Qed.
(* the hypotheses of the statements about one call *)
Example reach3 : reach (cfg Bidirectional) (fst run3).
Proof. exists frames3. split; [exact flow_frames3 | reflexivity]. Qed.

(* ---- C28/C60: messages of the run as the back end's maps ---- *)
Definition enc3 (f : feature) : Z := Qfloor (px (ft_left f)) * 100 + Qfloor (px (ft_right f)).
Example maps3 : map (back_map enc3 (snd run3)) [0%nat; 1%nat; 2%nat] =
  [Some [(0, 604); (1, 806)]; Some [(0, 705); (1, 907); (2, 503)]; Some [(0, 806); (2, 604); (3, 402)]].
Proof. vm_compute. reflexivity. Qed.
Example contract3 : exists frames, Forall2 (fun i m => back_map enc3 (snd run3) i = Some m) [0%nat; 2%nat] frames /\
  length frames = 2%nat /\ contiguous frames.
Proof.
  exists [[(0, 604); (1, 806)]; [(0, 806); (2, 604); (3, 402)]].
  assert (S : Forall2 (fun i m => back_map enc3 (snd run3) i = Some m) [0%nat; 2%nat] [[(0, 604); (1, 806)]; [(0, 806); (2, 604); (3, 402)]]).
  { constructor; [vm_compute; reflexivity|]. constructor; [vm_compute; reflexivity | constructor]. }
  split; [exact S|]. split; [reflexivity|].
  apply (tracker_meets_contract (cfg Bidirectional) frames3 (fst run3) (snd run3) enc3 flow_frames3 ltac:(apply surjective_pairing) [0%nat; 2%nat]); [|exact S].
  cbn. repeat split; intros b H; destruct H as [<-|[]] || destruct H; lia.
Qed.

(* ---- C29 refuted: a new match of zero disparity is emitted although the stereo filter would reject it ---- *)
Definition flat (s : Z) : image := Im 12 9 true (fun _ _ => 50).
Definition zero_frame : frame := Frame (flat 0) (flat 0) None (fun _ => [K 6 3]) flow.
Theorem zero_disparity_refuted : exists c f st' out s n id a b,
  reach c tst0 /\ flow_ok f /\ process c tst0 f = (st', Ok (out, s)) /\ at_n out n id a b /\ ~ epipolar (c_vert c) (kpt a) (kpt b).
Proof.
  exists (cfg Bidirectional), zero_frame.
  destruct (process (cfg Bidirectional) tst0 zero_frame) as [st' [[out s]| |]] eqn:E; [|exfalso; vm_compute in E; discriminate..].
  exists st', out, s, 0%nat, 0, (K 6 3), (K 6 3). split; [exists []; split; [constructor | reflexivity]|].
  split; [intros a b l; apply map_length|]. split; [reflexivity|].
  assert (O : at_n out 0 0 (K 6 3) (K 6 3)).
  { vm_compute in E. injection E as _ <- _. repeat split; reflexivity. }
  split; [exact O|]. intros [H _]. vm_compute in H. discriminate.
Qed.

(* ---- C30 refuted: a keypoint far from every emitted feature is removed because of a track the filters drop ---- *)
Definition drop0 : frame := fr [K 6 3] [K 4 3] None.
(* the flow moves the left point below the right one: the pair violates the epipolar test and is dropped *)
Definition bad_flow (a _ : image) (l : list pt) : list (pt * Z) :=
  map (fun p => if Qeq_bool (px p) 6 then (Pt 6 6, 1) else (Pt 4 3, 1)) l.
Definition drop1 : frame := Frame L0 R0 None (det [K 6 6; K 9 5] [K 4 6; K 7 5]) bad_flow.
Theorem suppressed_by_dropped_refuted : exists c st f st' out s k,
  reach c st /\ flow_ok f /\ process c st f = (st', Ok (out, s)) /\
  In k (f_det f (f_left f)) /\ (forall n id a b, at_n out n id a b -> apart (c_sqr c) a k) /\
  st_filtered s = Some (1, 2) /\ st_extracted s = (2, 2) /\ ~ In k (kL out).
Proof.
  exists (cfg Bidirectional), (fst (track_run (cfg Bidirectional) tst0 [drop0])), drop1.
  destruct (process (cfg Bidirectional) (fst (track_run (cfg Bidirectional) tst0 [drop0])) drop1) as [st' [[out s]| |]] eqn:E;
    [|exfalso; vm_compute in E; discriminate..].
  exists st', out, s, (K 6 6). split; [exists [drop0]; split; [constructor; [intros a b l; apply map_length | constructor] | reflexivity]|].
  split; [intros a b l; unfold drop1; cbn [f_flow]; unfold bad_flow; apply map_length|]. split; [reflexivity|].
  split; [left; reflexivity|].
  assert (O : kL out = [K 9 5] /\ kR out = [K 7 5] /\ ids out = [1] /\ st_filtered s = Some (1, 2) /\ st_extracted s = (2, 2)).
  { vm_compute in E. injection E as _ <- <-. repeat split; reflexivity. }
  destruct O as (O1 & O2 & O3 & O4 & O5). split; [|split; [exact O4|split; [exact O5|]]].
  - intros n id a b (A & B & C). rewrite O1 in B. destruct n as [|n]; [|destruct n; discriminate]. injection B as <-.
    vm_compute. reflexivity.
  - rewrite O1. intros [H|[]]. discriminate.
Qed.
(* two statistics of the first frame are never written *)
Theorem first_frame_statistics_refuted : exists c f st' out s, flow_ok f /\ process c tst0 f = (st', Ok (out, s)) /\
  st_tracked_kp s = None /\ st_filtered s = None.
Proof.
  exists (cfg Bidirectional), drop0. destruct (process (cfg Bidirectional) tst0 drop0) as [st' [[out s]| |]] eqn:E; [|exfalso; vm_compute in E; discriminate..].
  exists st', out, s. split; [intros a b l; apply map_length|]. split; [reflexivity|].
  vm_compute in E. injection E as _ _ <-. split; reflexivity.
Qed.
(* a failed call (the matcher refuses the image type) drops the tracks it had but keeps the old images *)
Definition colour : image := Im 12 9 false (fun r c => (17 * r + 5 * c + c * c) mod 256).
Theorem failed_call_changes_state_refuted : exists c st f st', reach c st /\ flow_ok f /\ process c st f = (st', Throw) /\
  t_frame st' <> t_frame st /\ ids (t_prev st') <> ids (t_prev st) /\ t_images st' = t_images st.
Proof.
  set (f1 := Frame colour colour None (fun _ => [K 9 6]) bad_flow).
  exists (cfg Bidirectional), (fst (track_run (cfg Bidirectional) tst0 [drop0])), f1.
  exists (fst (process (cfg Bidirectional) (fst (track_run (cfg Bidirectional) tst0 [drop0])) f1)).
  split; [exists [drop0]; split; [constructor; [intros a b l; apply map_length | constructor] | reflexivity]|].
  split; [intros a b l; apply map_length|]. split; [|split; [vm_compute; discriminate | split; [vm_compute; discriminate | vm_compute; reflexivity]]].
  rewrite (surjective_pairing (process _ _ _)) at 1. f_equal.
Qed.

(* ---- C32 ---- *)
(* cost table: the window's abscissa decides *)
Definition tab (f : mfilter) (t : Z -> Q) : matcher := Mk (3, 3) 1 f (8 # 10) (fun _ _ _ _ _ s _ => Ok (Some (t (fst s)))).
(* the second best comes after the best: the ratio test accepts 10 against 10.1 *)
Definition t1 (x : Z) : Q := if x =? 3 then 10 else 101 # 10.
Theorem ratio_ignores_later_refuted : exists m ref cands imL imR j q i ci s,
  m_filter m = RatioTest /\ (m_ratio m == 8 # 10)%Q /\
  keypoint_index m ref cands imL imR true None = Ok (j, Some q) /\ j <> -1 /\ i <> j /\
  nth_error cands (Z.to_nat i) = Some ci /\ candidate m imR true ref ci /\
  wcost m ref imL imR true ci = Ok (Some s) /\ ~ (q <= m_ratio m * s)%Q.
Proof.
  exists (tab RatioTest t1), (K 8 4), [K 4 4; K 6 4], L0, R0, 0, 10%Q, 1, (K 6 4), (101 # 10)%Q.
  split; [reflexivity|]. split; [reflexivity|]. split; [vm_compute; reflexivity|]. split; [discriminate|]. split; [discriminate|].
  split; [reflexivity|]. split; [apply admissible_spec; vm_compute; reflexivity|]. split; [vm_compute; reflexivity|].
  intros H. vm_compute in H. apply H. reflexivity.
Qed.
(* the ratio test does reject when the second best comes first *)
Example ratio_rejects : keypoint_index (tab RatioTest t1) (K 8 4) [K 6 4; K 4 4] L0 R0 true None = Ok (-1, Some 10%Q).
Proof. vm_compute. reflexivity. Qed.
(* negative costs: a clearly better match is rejected because another candidate precedes it *)
Definition tneg (x : Z) : Q := if x =? 3 then - (9 # 10) else - (1 # 10).
Example ratio_negative : keypoint_index (tab RatioTest tneg) (K 8 4) [K 6 4; K 4 4] L0 R0 true None = Ok (-1, Some (- (9 # 10))%Q).
Proof. vm_compute. reflexivity. Qed.
(* unidirectional matching gives one right keypoint to two left ones *)
Theorem unidirectional_duplicates_refuted : exists m l r imL imR res i i' j c c',
  m_filter m = Unidirectional /\ keypoint_indices m l r imL imR true = Ok res /\ NoDup l /\
  nth_error res i = Some (j, c) /\ nth_error res i' = Some (j, c') /\ j <> -1 /\ i <> i'.
Proof.
  exists (tab Unidirectional t1), [K 8 4; K 6 4], [K 4 4], L0, R0, [(0, Some 10%Q); (0, Some 10%Q)], 0%nat, 1%nat, 0, (Some 10%Q), (Some 10%Q).
  split; [reflexivity|]. split; [vm_compute; reflexivity|]. split.
  - constructor; [intros [H|[]]; discriminate|]. constructor; [intros []|constructor].
  - repeat split; try reflexivity; discriminate.
Qed.
(* bidirectional: a concrete mutual assignment of two pairs *)
Example bidirectional_two : keypoint_indices (sadm Bidirectional) [K 6 3; K 8 5] [K 6 5; K 4 3] L0 R0 true =
  Ok [(1, Some 0%Q); (0, Some 0%Q)].
Proof. vm_compute. reflexivity. Qed.
(* dense matching near the border reads an unassigned flag *)
Theorem dense_unassigned_refuted : exists m l imL imR, matcher_ok (m_win m) (m_ratio m) = true /\
  icols imL = icols imR /\ irows imL = irows imR /\ i8u imL = true /\ keypoints_in_other m l imL imR true = UB.
Proof. exists (sadm Bidirectional), [K 0 4], L0, R0. repeat split; vm_compute; reflexivity. Qed.
Example dense_found : exists k c, keypoint_in_other (sadm Bidirectional) (K 6 3) L0 R0 true None = Ok (k, c, Some true) /\ c = Some 0%Q.
Proof. do 2 eexists. split; vm_compute; reflexivity. Qed.

(* ---- C33 ---- *)
Theorem window_sum_refuted : exists junk im tl w, inside im tl w /\
  window_sum junk im tl w <> Ok (wsum (fun a => a) im tl w) /\
  window_sum_squares junk im tl w <> Ok (wsum (fun a => a * a) im tl w).
Proof. exists 3, L0, (2, 2), (3, 3). split; [apply inside_spec; reflexivity|]. split; vm_compute; discriminate. Qed.
Example window_inside : inside L0 (2, 2) (3, 3) /\ wsum (fun a => a) L0 (2, 2) (3, 3) > 0 /\ ~ inside L0 (10, 2) (3, 3).
Proof.
  split; [apply inside_spec; reflexivity|]. split; [vm_compute; reflexivity|]. rewrite <- inside_spec. discriminate.
Qed.
Example sad_nonzero : sad L0 R0 (5, 2) (4, 2) (3, 3) = Ok 162 /\ sad L0 R0 (5, 2) (3, 2) (3, 3) = Ok 0.
Proof. vm_compute. split; reflexivity. Qed.

(* ---- C31 ---- *)
Example filter_cases :
  stereo_filter 1 [K 6 3; K 8 5; K 4 4] [K 4 3; K 9 5; K 3 7] [Dm 0 0 1; Dm 1 1 2; Dm 2 2 3; Dm 0 2 4] = Ok ([Dm 0 0 1], [0]) /\
  depth_filter (sdf_make 10 2 20 5) [K 6 3; K 8 5] [K 4 3; K 1 5] [Dm 0 0 1; Dm 1 1 2] = Ok ([Dm 0 0 1], [0]) /\
  distance_filter 2 [Dm 0 0 1; Dm 1 1 3; Dm 2 2 2] = Ok ([Dm 0 0 1; Dm 2 2 2], [0; 2]) /\
  stereo_filter 1 [K 6 3] [K 4 3] [Dm 0 1 1] = Throw.
Proof. vm_compute. repeat split; reflexivity. Qed.
