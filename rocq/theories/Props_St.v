(* Properties C28-C34, C59-C61 (stereo front end). Proofs in the St*.v files; concrete cases in StExamples.v. *)
From Verif Require Import Base GmModel GmSpec GmStereo GmReady StModel StSpec StFilter StTrack StMatch StRun StEmit StCost StLink StExamples StDense.

(* C28 *)
Theorem C28_increasing :
  forall (c : tcfg) (l : list frame) (st' : tst) (os : list (res (lrm * tstats))),
    Forall flow_ok l ->
    track_run c tst0 l = (st', os) -> forall (i : nat) (o : lrm), outs os i = Some o -> incr (ids o) /\ (forall x : Z, In x (ids o) -> 0 <= x).
Proof. exact (@ids_increase). Qed.
Theorem C28_carried_or_fresh :
  forall (c : tcfg) (l : list frame) (st' : tst) (os : list (res (lrm * tstats))),
    Forall flow_ok l ->
    track_run c tst0 l = (st', os) ->
    forall (i j : nat) (o1 o2 : lrm),
    (i < j)%nat ->
    outs os i = Some o1 -> outs os j = Some o2 -> forall x : Z, In x (ids o2) -> In x (ids o1) \/ (forall y : Z, In y (ids o1) -> y < x).
Proof. exact (@ids_carried_or_fresh). Qed.
Theorem C28_never_return :
  forall (c : tcfg) (l : list frame) (st' : tst) (os : list (res (lrm * tstats))),
    Forall flow_ok l ->
    track_run c tst0 l = (st', os) ->
    forall (i k j : nat) (o1 o o2 : lrm),
    (i < k)%nat ->
    (k < j)%nat ->
    outs os i = Some o1 -> outs os k = Some o -> outs os j = Some o2 -> forall x : Z, In x (ids o1) -> ~ In x (ids o) -> ~ In x (ids o2).
Proof. exact (@ids_never_return). Qed.
Theorem C28_dense :
  forall (c : tcfg) (l : list frame) (st' : tst) (os : list (res (lrm * tstats))),
    Forall flow_ok l ->
    track_run c tst0 l = (st', os) ->
    forall (i : nat) (o : lrm) (x y : Z),
    outs os i = Some o -> In x (ids o) -> 0 <= y < x -> exists (i' : nat) (o' : lrm), (i' <= i)%nat /\ outs os i' = Some o' /\ In y (ids o').
Proof. exact (@ids_dense). Qed.

(* C29 *)
Theorem C29_index_consistent :
  forall (c : tcfg) (st : tst) (f : frame) (st' : tst) (out : lrm) (s : tstats),
    reach c st ->
    flow_ok f ->
    process c st f = (st', Ok (out, s)) ->
    Datatypes.length (kL out) = Datatypes.length (ms out) /\
    Datatypes.length (kR out) = Datatypes.length (ms out) /\
    Datatypes.length (ids out) = Datatypes.length (ms out) /\
    (forall (n : nat) (m : dm), nth_error (ms out) n = Some m -> qi m = Z.of_nat n /\ ti m = Z.of_nat n) /\
    (exists fs : list feature,
       features out = Ok fs /\
       Datatypes.length fs = Datatypes.length (ms out) /\
       (forall (n : nat) (x : feature),
        nth_error fs n = Some x ->
        nth_error (ids out) n = Some (ft_id x) /\
        nth_error (map kpt (kL out)) n = Some (ft_left x) /\ nth_error (map kpt (kR out)) n = Some (ft_right x))).
Proof. exact (@index_consistent). Qed.
Theorem C29_origin :
  forall (c : tcfg) (st : tst) (f : frame) (st' : tst) (out : lrm) (s : tstats),
    reach c st ->
    flow_ok f ->
    process c st f = (st', Ok (out, s)) ->
    forall (n : nat) (id : Z) (a b : kp), at_n out n id a b -> carried c st f id a b \/ newborn c st f id a b.
Proof. exact (@emitted). Qed.
Theorem C29_nothing_lost :
  forall (c : tcfg) (st : tst) (f : frame) (st' : tst) (out : lrm) (s : tstats),
    reach c st ->
    flow_ok f -> process c st f = (st', Ok (out, s)) -> forall (id : Z) (a b : kp), carried c st f id a b -> exists n : nat, at_n out n id a b.
Proof. exact (@carried_emitted). Qed.
Theorem C29_zero_disparity_refuted :
  exists (c : tcfg) (f : frame) (st' : tst) (out : lrm) (s : tstats) (n : nat) (id : Z) (a b : kp),
      reach c tst0 /\ flow_ok f /\ process c tst0 f = (st', Ok (out, s)) /\ at_n out n id a b /\ ~ epipolar (c_vert c) (kpt a) (kpt b).
Proof. exact (@zero_disparity_refuted). Qed.

(* C30 *)
Theorem C30_removal_exact :
  forall (sqr : Q) (l refs : list kp),
    exists idx : list Z, selects (fun k : kp => forall r : kp, In r refs -> apart sqr r k) l (remove_close sqr l refs) idx.
Proof. exact (@remove_close_exact). Qed.
Theorem C30_new_clear_of_carried :
  forall (c : tcfg) (st : tst) (f : frame) (st' : tst) (out : lrm) (s : tstats),
    reach c st ->
    flow_ok f ->
    process c st f = (st', Ok (out, s)) ->
    forall (n m : nat) (i j : Z) (a b a' b' : kp),
    at_n out n i a b -> at_n out m j a' b' -> i < t_next st -> t_next st <= j -> apart (c_sqr c) a a' /\ apart (c_sqr c) b b'.
Proof. exact (@new_clear_of_carried). Qed.
Theorem C30_suppressed_refuted :
  exists (c : tcfg) (st : tst) (f : frame) (st' : tst) (out : lrm) (s : tstats) (k : kp),
      reach c st /\
      flow_ok f /\
      process c st f = (st', Ok (out, s)) /\
      In k (f_det f (f_left f)) /\
      (forall (n : nat) (id : Z) (a b : kp), at_n out n id a b -> apart (c_sqr c) a k) /\
      st_filtered s = Some (1, 2) /\ st_extracted s = (2, 2) /\ ~ In k (kL out).
Proof. exact (@suppressed_by_dropped_refuted). Qed.

(* C31 *)
Theorem C31_distance :
  forall (thr : Q) (l : list dm),
    exists (r : list dm) (idx : list Z), distance_filter thr l = Ok (r, idx) /\ selects (fun m : dm => (dd m <= thr)%Q) l r idx.
Proof. exact (@distance_exact). Qed.
Theorem C31_epipolar :
  forall (thr : Q) (kq kt : list kp) (l : list dm),
    (forall m : dm, In m l -> refers kq kt m) ->
    exists (r : list dm) (idx : list Z), stereo_filter thr kq kt l = Ok (r, idx) /\ selects (good (epipolar thr) kq kt) l r idx.
Proof. exact (@stereo_exact). Qed.
Theorem C31_depth :
  forall (f : sdf) (kq kt : list kp) (l : list dm),
    (forall m : dm, In m l -> refers kq kt m) ->
    exists (r : list dm) (idx : list Z),
      depth_filter f kq kt l = Ok (r, idx) /\ selects (good (in_range (s_fxb f) (s_min f) (s_max f)) kq kt) l r idx.
Proof. exact (@depth_exact). Qed.
Theorem C31_idempotent :
  forall (thr : Q) (kq kt : list kp) (l r : list dm) (idx : list Z),
    (forall m : dm, In m l -> refers kq kt m) ->
    stereo_filter thr kq kt l = Ok (r, idx) -> exists idx' : list Z, stereo_filter thr kq kt r = Ok (r, idx').
Proof. exact (@stereo_idempotent). Qed.
Theorem C31_depth_idempotent :
  forall (f : sdf) (kq kt : list kp) (l r : list dm) (idx : list Z),
    (forall m : dm, In m l -> refers kq kt m) ->
    depth_filter f kq kt l = Ok (r, idx) -> exists idx' : list Z, depth_filter f kq kt r = Ok (r, idx').
Proof. exact (@depth_idempotent). Qed.
Theorem C31_commute :
  forall (thr : Q) (f : sdf) (kq kt : list kp) (l : list dm),
    (forall m : dm, In m l -> refers kq kt m) ->
    exists (r1 r2 r : list dm) (i1 i2 i3 i4 : list Z),
      stereo_filter thr kq kt l = Ok (r1, i1) /\
      depth_filter f kq kt r1 = Ok (r, i2) /\ depth_filter f kq kt l = Ok (r2, i3) /\ stereo_filter thr kq kt r2 = Ok (r, i4).
Proof. exact (@filters_commute). Qed.
Theorem C31_distance_idempotent :
  forall (thr : Q) (l r : list dm) (idx : list Z),
    distance_filter thr l = Ok (r, idx) -> exists idx' : list Z, distance_filter thr r = Ok (r, idx').
Proof. exact (@distance_idempotent). Qed.
Theorem C31_distance_commutes :
  forall (d thr : Q) (f : sdf) (kq kt : list kp) (l : list dm),
    (forall m : dm, In m l -> refers kq kt m) ->
    (exists (r1 r2 r : list dm) (i1 i2 i3 i4 : list Z),
       stereo_filter thr kq kt l = Ok (r1, i1) /\
       distance_filter d r1 = Ok (r, i2) /\ distance_filter d l = Ok (r2, i3) /\ stereo_filter thr kq kt r2 = Ok (r, i4)) /\
    (exists (r1 r2 r : list dm) (i1 i2 i3 i4 : list Z),
       depth_filter f kq kt l = Ok (r1, i1) /\
       distance_filter d r1 = Ok (r, i2) /\ distance_filter d l = Ok (r2, i3) /\ depth_filter f kq kt r2 = Ok (r, i4)).
Proof. exact (@distance_commutes). Qed.
Theorem C31_bad_index_throws :
  forall (t : kp -> kp -> bool) (kq kt : list kp) (l : list dm) (i : Z),
    (exists m : dm, In m l /\ ~ refers kq kt m) ->
    keep (fun m : dm => rbind (vat kq (qi m)) (fun a : kp => rbind (vat kt (ti m)) (fun b : kp => Ok (t a b)))) i l = Throw.
Proof. exact (@any_filter_throws). Qed.
Theorem C31_setters_refuted :
  forall fx base mx mn v : Q, set_fx (sdf_make fx base mx mn) v = UB /\ set_baseline (sdf_make fx base mx mn) v = UB.
Proof. exact (@setters_ub). Qed.

(* C32 *)
Theorem C32_best :
  forall (m : matcher) (ref : kp) (cands : list kp) (imL imR : image) (right : bool) (c0 : option Q) (j : Z) (cost : option Q),
    keypoint_index m ref cands imL imR right c0 = Ok (j, cost) ->
    j <> -1 ->
    exists (c : kp) (q : Q),
      cand_at m ref cands imL imR right j c /\
      wcost m ref imL imR right c = Ok (Some q) /\
      cost = Some q /\
      (forall (i : Z) (ci : kp) (wi : option Q),
       cand_at m ref cands imL imR right i ci -> wcost m ref imL imR right ci = Ok wi -> dle (Some q) wi /\ (i < j -> dlt (Some q) wi = true)).
Proof. exact (@index_best). Qed.
Theorem C32_none :
  forall (m : matcher) (ref : kp) (cands : list kp) (imL imR : image) (right : bool) (c0 cost : option Q),
    keypoint_index m ref cands imL imR right c0 = Ok (-1, cost) ->
    window_within_image (if right then imL else imR) (top_left m (kpt ref)) (m_win m) = false \/
    (forall (i : Z) (ci : kp) (wi : option Q), cand_at m ref cands imL imR right i ci -> wcost m ref imL imR right ci = Ok wi -> wi = None) \/
    m_filter m = RatioTest /\
    (exists (b : Z) (cb : kp) (q : Q) (i : Z) (ci : kp) (s : Q),
       cand_at m ref cands imL imR right b cb /\
       wcost m ref imL imR right cb = Ok (Some q) /\
       i < b /\
       cand_at m ref cands imL imR right i ci /\ wcost m ref imL imR right ci = Ok (Some s) /\ (q < s)%Q /\ ~ s == 0 /\ (m_ratio m < q / s)%Q).
Proof. exact (@index_none). Qed.
Theorem C32_mutual :
  forall (m : matcher) (left_kps right_kps : list kp) (imL imR : image) (r : list (Z * option Q)),
    m_filter m = Bidirectional ->
    keypoint_indices m left_kps right_kps imL imR true = Ok r ->
    forall (i : nat) (j : Z) (c : option Q),
    nth_error r i = Some (j, c) ->
    j <> -1 ->
    exists kl kr : kp,
      nth_error left_kps i = Some kl /\
      0 <= j /\
      nth_error right_kps (Z.to_nat j) = Some kr /\
      keypoint_index m kl right_kps imL imR true (Some 0%Q) = Ok (j, c) /\
      (exists c' : option Q, keypoint_index m kr left_kps imL imR false None = Ok (Z.of_nat i, c')).
Proof. exact (@indices_mutual). Qed.
Theorem C32_one_to_one :
  forall (m : matcher) (left_kps right_kps : list kp) (imL imR : image) (r : list (Z * option Q)),
    m_filter m = Bidirectional ->
    keypoint_indices m left_kps right_kps imL imR true = Ok r ->
    forall (i i' : nat) (j : Z) (c c' : option Q), nth_error r i = Some (j, c) -> nth_error r i' = Some (j, c') -> j <> -1 -> i = i'.
Proof. exact (@indices_injective). Qed.
Theorem C32_total :
  forall (m : matcher) (left_kps right_kps : list kp) (imL imR : image) (right : bool),
    icols imL = icols imR ->
    irows imL = irows imR -> cost_total m imL imR -> exists r : list (Z * option Q), keypoint_indices m left_kps right_kps imL imR right = Ok r.
Proof. exact (@indices_total). Qed.
Theorem C32_ratio_earlier :
  forall (m : matcher) (ref : kp) (cands : list kp) (imL imR : image) (right : bool) (c0 : option Q) (j : Z) (cost : option Q),
    keypoint_index m ref cands imL imR right c0 = Ok (j, cost) ->
    j <> -1 ->
    m_filter m = RatioTest ->
    (0 < m_ratio m)%Q ->
    forall (i : Z) (ci : kp) (s q : Q),
    i < j ->
    cand_at m ref cands imL imR right i ci -> wcost m ref imL imR right ci = Ok (Some s) -> cost = Some q -> (0 <= q)%Q -> (q <= m_ratio m * s)%Q.
Proof. exact (@ratio_accepts). Qed.
Theorem C32_ratio_refuted :
  exists (m : matcher) (ref : kp) (cands : list kp) (imL imR : image) (j : Z) (q : Q) (i : Z) (ci : kp) (s : Q),
      m_filter m = RatioTest /\
      m_ratio m == 0.8 /\
      keypoint_index m ref cands imL imR true None = Ok (j, Some q) /\
      j <> -1 /\
      i <> j /\
      nth_error cands (Z.to_nat i) = Some ci /\
      candidate m imR true ref ci /\ wcost m ref imL imR true ci = Ok (Some s) /\ ~ (q <= m_ratio m * s)%Q.
Proof. exact (@ratio_ignores_later_refuted). Qed.
Theorem C32_ratio_negative :
  forall (m : matcher) (ref : kp) (cands : list kp) (imL imR : image) (right : bool) (c0 : option Q) (j : Z) (cost : option Q),
    keypoint_index m ref cands imL imR right c0 = Ok (j, cost) ->
    m_filter m = RatioTest ->
    (m_ratio m < 1)%Q ->
    (forall (i : Z) (ci : kp) (wi : option Q),
     cand_at m ref cands imL imR right i ci -> wcost m ref imL imR right ci = Ok wi -> exists q : Q, wi = Some q /\ (q < 0)%Q) ->
    j <> -1 -> forall (i : Z) (ci : kp) (wi : option Q), cand_at m ref cands imL imR right i ci -> wcost m ref imL imR right ci = Ok wi -> j <= i.
Proof. exact (@ratio_negative_rejects). Qed.
Theorem C32_unidirectional_refuted :
  exists (m : matcher) (l r : list kp) (imL imR : image) (res0 : list (Z * option Q)) (i i' : nat) (j : Z) (c c' : option Q),
      m_filter m = Unidirectional /\
      keypoint_indices m l r imL imR true = Ok res0 /\
      NoDup l /\ nth_error res0 i = Some (j, c) /\ nth_error res0 i' = Some (j, c') /\ j <> -1 /\ i <> i'.
Proof. exact (@unidirectional_duplicates_refuted). Qed.
Theorem C32_dense :
  forall (m : matcher) (k : kp) (imL imR : image) (right : bool) (c0 : option Q) (k' : kp) (cost : option Q) (b : bool),
    0 < fst (m_win m) ->
    keypoint_in_other m k imL imR right c0 = Ok (k', cost, Some b) ->
    let rim := if right then imL else imR in
    let sim := if right then imR else imL in
    let tl := top_left m (kpt k) in
    let c := fun x : Z => m_gen m rim tl rim sim tl (x, snd tl) (m_win m) in
    exists x : Z,
      along m imL right (fst tl) x /\
      kpt k' = {| px := inject_Z x + inject_Z (fst (m_win m)) / 2; py := inject_Z (snd tl) + inject_Z (snd (m_win m)) / 2 |} /\
      (forall z : Z, along m imL right (fst tl) z -> exists w : option Q, c z = Ok w /\ dle cost w) /\ (cost <> None -> c x = Ok cost).
Proof. exact (@dense_best). Qed.
Theorem C32_dense_matched :
  forall (m : matcher) (k : kp) (imL imR : image) (right : bool) (c0 : option Q) (k' : kp) (cost : option Q) (b : bool),
    0 < fst (m_win m) ->
    keypoint_in_other m k imL imR right c0 = Ok (k', cost, Some b) ->
    let rim := if right then imL else imR in
    let sim := if right then imR else imL in
    let tl := top_left m (kpt k) in
    let c := fun r x : Z => m_gen m rim tl rim sim (r, snd tl) (x, snd tl) (m_win m) in
    exists x : Z,
      along m imL right (fst tl) x /\
      kpt k' = {| px := inject_Z x + inject_Z (fst (m_win m)) / 2; py := inject_Z (snd tl) + inject_Z (snd (m_win m)) / 2 |} /\
      (forall z : Z, along m imL right (fst tl) z -> exists w : option Q, c (fst tl) z = Ok w /\ dle cost w) /\
      (cost <> None -> c (fst tl) x = Ok cost) /\
      match m_filter m with
      | Unidirectional => b = true
      | Bidirectional =>
          (b = true -> forall r : Z, back m imL right x r -> r <> fst tl -> exists w : option Q, c r x = Ok w /\ dlt w cost = false) /\
          (b = false -> exists (r : Z) (w : option Q), back m imL right x r /\ r <> fst tl /\ c r x = Ok w /\ dlt w cost = true)
      | RatioTest =>
          (b = true ->
           exists q : Q,
             cost = Some q /\
             (forall (z : Z) (s : Q),
              along m imL right (fst tl) z ->
              Z.abs (z - fst tl) < Z.abs (x - fst tl) -> c (fst tl) z = Ok (Some s) -> (0 < m_ratio m)%Q -> (0 <= q)%Q -> (q <= m_ratio m * s)%Q)) /\
          (b = false ->
           cost = None \/
           (exists (z : Z) (q s : Q),
              along m imL right (fst tl) z /\
              Z.abs (z - fst tl) < Z.abs (x - fst tl) /\
              cost = Some q /\ c (fst tl) z = Ok (Some s) /\ (q < s)%Q /\ ~ s == 0 /\ (m_ratio m < q / s)%Q))
      end.
Proof. exact (@dense_matched). Qed.
Theorem C32_constructor :
  forall (w : Z * Z) (vert : Q) (f : mfilter) (r : Q) (g : genfn),
    (exists m : matcher, make_matcher w vert f r g = Ok m /\ m_win m = w /\ m_vert m = vert /\ m_filter m = f /\ m_ratio m = r /\ m_gen m = g) <->
    (0 < fst w /\ Z.odd (fst w) = true) /\ (0 < snd w /\ Z.odd (snd w) = true) /\ (0 < r < 1)%Q.
Proof. exact (@matcher_constructor). Qed.
Theorem C32_dense_flag_refuted :
  exists (m : matcher) (l : list kp) (imL imR : image),
      matcher_ok (m_win m) (m_ratio m) = true /\
      icols imL = icols imR /\ irows imL = irows imR /\ i8u imL = true /\ keypoints_in_other m l imL imR true = UB.
Proof. exact (@dense_unassigned_refuted). Qed.

(* C33 *)
Theorem C33_exact :
  forall (junk : Z) (im : image) (tl w : Z * Z),
    inside im tl w ->
    window_sum junk im tl w = Ok (junk + wsum (fun a : Z => a) im tl w) /\
    window_sum_squares junk im tl w = Ok (junk + wsum (fun a : Z => a * a) im tl w).
Proof. exact (@window_sums_exact). Qed.
Theorem C33_reads :
  forall (junk : Z) (im : image) (tl w : Z * Z),
    0 < fst w ->
    0 < snd w ->
    (window_within_image im tl w = true <-> window_sum junk im tl w <> UB) /\
    (window_within_image im tl w = true <-> window_sum_squares junk im tl w <> UB).
Proof. exact (@window_reads_inside). Qed.
Theorem C33_initial_value_refuted :
  exists (junk : Z) (im : image) (tl w : Z * Z),
      inside im tl w /\
      window_sum junk im tl w <> Ok (wsum (fun a : Z => a) im tl w) /\ window_sum_squares junk im tl w <> Ok (wsum (fun a : Z => a * a) im tl w).
Proof. exact (@window_sum_refuted). Qed.

(* C59 *)
Theorem C59_statistics :
  forall (c : tcfg) (st : tst) (f : frame) (st' : tst) (out : lrm) (s : tstats),
    reach c st ->
    flow_ok f ->
    process c st f = (st', Ok (out, s)) ->
    st_total s = st_tracked s + st_new s /\
    st_total s = Z.of_nat (Datatypes.length (ids out)) /\
    st_ids s = ids out /\
    st_max_id s = t_next st' - 1 /\
    st_tracked s = Z.of_nat (Datatypes.length (filter (fun x : Z => x <? t_next st) (ids out))) /\
    st_new s = Z.of_nat (Datatypes.length (filter (fun x : Z => t_next st <=? x) (ids out))) /\
    (st_tracked s = 0 -> st_longest s = -1) /\
    (st_tracked s <> 0 -> In (st_longest s) (ids out) /\ (forall x : Z, In x (ids out) -> st_longest s <= x)).
Proof. exact (@statistics_consistent). Qed.
Theorem C59_frame_number :
  forall (c : tcfg) (l : list frame), t_frame (fst (track_run c tst0 l)) = Z.of_nat (Datatypes.length (filter same_size l)) - 1.
Proof. exact (@frame_number_counts). Qed.
Theorem C59_first_frame_refuted :
  exists (c : tcfg) (f : frame) (st' : tst) (out : lrm) (s : tstats),
      flow_ok f /\ process c tst0 f = (st', Ok (out, s)) /\ st_tracked_kp s = None /\ st_filtered s = None.
Proof. exact (@first_frame_statistics_refuted). Qed.
Theorem C59_defined :
  forall (c : tcfg) (st : tst) (f : frame),
    reach c st -> flow_ok f -> cost_total (c_match c) (f_left f) (f_right f) -> is_ok (snd (process c st f)) = same_size f.
Proof. exact (@process_defined). Qed.
Theorem C59_failed_call_refuted :
  exists (c : tcfg) (st : tst) (f : frame) (st' : tst),
      reach c st /\
      flow_ok f /\ process c st f = (st', Throw) /\ t_frame st' <> t_frame st /\ ids (t_prev st') <> ids (t_prev st) /\ t_images st' = t_images st.
Proof. exact (@failed_call_changes_state_refuted). Qed.

(* C60 *)
Theorem C60_message_accepted :
  forall (c : tcfg) (l : list frame) (st' : tst) (os : list (res (lrm * tstats))) (enc : feature -> Z),
    Forall flow_ok l ->
    track_run c tst0 l = (st', os) ->
    forall (i : nat) (o : lrm), outs os i = Some o -> exists m : omap Z, back_map enc os i = Some m /\ map fst m = ids o.
Proof. exact (@message_accepted). Qed.
Theorem C60_message_read :
  forall (enc : feature -> Z) (l : list feature),
    (NoDup (map ft_id l) ->
     exists m : omap Z,
       from_features enc l [] = Ok m /\
       (forall f : feature, In f l -> mget (ft_id f) m = Some (enc f)) /\ (forall k : Z, ~ In k (map ft_id l) -> mget k m = None)) /\
    (~ NoDup (map ft_id l) -> from_features enc l [] = Throw).
Proof. exact (@message_read). Qed.
Theorem C60_meets_contract :
  forall (c : tcfg) (l : list frame) (st' : tst) (os : list (res (lrm * tstats))) (enc : feature -> Z),
    Forall flow_ok l ->
    track_run c tst0 l = (st', os) ->
    forall (sel : list nat) (frames : list (omap Z)),
    increasing sel ->
    Forall2 (fun (i : nat) (m : omap Z) => back_map enc os i = Some m) sel frames ->
    Forall msorted frames /\
    contiguous frames /\ (forall k0 : Z, never_reacquired k0 frames) /\ (forall (m : omap Z) (x : Z), In m frames -> mget x m <> None -> 0 <= x).
Proof. exact (@tracker_meets_contract). Qed.

(* C61, integer costs *)
Theorem C61_zero :
  forall (im1 im2 : image) (a b w : Z * Z),
    i8u im1 = true ->
    i8u im2 = true ->
    inside im1 a w ->
    inside im2 b w ->
    exists x y : Z,
      sad im1 im2 a b w = Ok x /\
      ssd im1 im2 a b w = Ok y /\ 0 <= x /\ 0 <= y /\ (x = 0 <-> same_window im1 im2 a b w) /\ (y = 0 <-> same_window im1 im2 a b w).
Proof. exact (@sad_ssd_zero). Qed.
Theorem C61_symmetric :
  forall (im1 im2 : image) (a b w : Z * Z), sad im1 im2 a b w = sad im2 im1 b a w /\ ssd im1 im2 a b w = ssd im2 im1 b a w.
Proof. exact (@sad_ssd_symmetric). Qed.
Theorem C61_triangle :
  forall (im1 im2 im3 : image) (a b c w : Z * Z) (x y z : Z),
    inside im1 a w ->
    inside im2 b w -> inside im3 c w -> sad im1 im2 a b w = Ok x -> sad im2 im3 b c w = Ok y -> sad im1 im3 a c w = Ok z -> z <= x + y.
Proof. exact (@sad_triangle). Qed.
Theorem C61_total :
  forall (m : matcher) (imL imR : image), m_gen m = gen_sad \/ m_gen m = gen_ssd -> i8u imL = true -> i8u imR = true -> cost_total m imL imR.
Proof. exact (@sad_cost_total). Qed.

Print Assumptions C28_increasing.
Print Assumptions C28_carried_or_fresh.
Print Assumptions C28_never_return.
Print Assumptions C28_dense.
Print Assumptions C29_index_consistent.
Print Assumptions C29_origin.
Print Assumptions C29_nothing_lost.
Print Assumptions C29_zero_disparity_refuted.
Print Assumptions C30_removal_exact.
Print Assumptions C30_new_clear_of_carried.
Print Assumptions C30_suppressed_refuted.
Print Assumptions C31_distance.
Print Assumptions C31_epipolar.
Print Assumptions C31_depth.
Print Assumptions C31_idempotent.
Print Assumptions C31_depth_idempotent.
Print Assumptions C31_commute.
Print Assumptions C31_distance_idempotent.
Print Assumptions C31_distance_commutes.
Print Assumptions C31_bad_index_throws.
Print Assumptions C31_setters_refuted.
Print Assumptions C32_best.
Print Assumptions C32_none.
Print Assumptions C32_mutual.
Print Assumptions C32_one_to_one.
Print Assumptions C32_total.
Print Assumptions C32_ratio_earlier.
Print Assumptions C32_ratio_refuted.
Print Assumptions C32_ratio_negative.
Print Assumptions C32_unidirectional_refuted.
Print Assumptions C32_dense.
Print Assumptions C32_dense_matched.
Print Assumptions C32_constructor.
Print Assumptions C32_dense_flag_refuted.
Print Assumptions C33_exact.
Print Assumptions C33_reads.
Print Assumptions C33_initial_value_refuted.
Print Assumptions C59_statistics.
Print Assumptions C59_frame_number.
Print Assumptions C59_first_frame_refuted.
Print Assumptions C59_defined.
Print Assumptions C59_failed_call_refuted.
Print Assumptions C60_message_accepted.
Print Assumptions C60_message_read.
Print Assumptions C60_meets_contract.
Print Assumptions C61_zero.
Print Assumptions C61_symmetric.
Print Assumptions C61_triangle.
Print Assumptions C61_total.
