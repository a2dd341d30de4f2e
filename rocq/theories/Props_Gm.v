(* Properties C01-C14 (graph manager). Proofs in the Gm*.v files; concrete cases in GmExamples.v. *)
From Verif Require Import Base GmModel GmSpec GmInv GmProofs GmFactors GmValues GmHist GmKeys GmStereo GmIds GmReach GmReady GmLandmarks GmExamples GmReadyEx.

(* C01 *)
Theorem C01_values_are_last_writes : forall bp ops c k,
  no_ub (gm_trace bp igm_init ops) ->
  gm_get c k (i_gm (gm_run bp igm_init ops)) =
  if idx_ok k then
    match last_write (raw c k) (run_writes bp igm_init ops) with Some v => Ok v | None => Throw end
  else Throw.
Proof. exact values_are_last_writes. Qed.

Theorem C01_frame : forall bp ops op c k,
  no_ub (gm_trace bp igm_init (ops ++ [op])) ->
  let s := gm_run bp igm_init ops in
  (forall v, ~ In (raw c k, v) (writes bp s op)) ->
  gm_get c k (i_gm (gm_run bp igm_init (ops ++ [op]))) = gm_get c k (i_gm s).
Proof. exact values_frame. Qed.

(* C02 *)
Theorem C02_pending_agrees : forall bp ops rk v,
  let g := i_gm (gm_run bp igm_init ops) in
  mget rk (g_new_val g) = Some v -> mget rk (g_val g) = Some v.
Proof. exact pending_agrees. Qed.

Theorem C02_handed_values_current : forall bp ops o m fs vs ks s',
  let s := gm_run bp igm_init ops in
  gm_step bp s (OOptimise o m) = (s', Ok (fs, vs, ks)) ->
  forall rk v, mget rk vs = Some v ->
    mget rk (g_val (i_gm s)) = Some v /\
    (forall ops', ~ In rk (mkeys (g_new_val (i_gm (gm_run bp s' ops'))))).
Proof. exact handed_values_current. Qed.

(* C03 *)
Theorem C03_hands_pending : forall bp ops o m s' fs vs ks,
  no_ub (gm_trace bp igm_init ops) -> opts_ok bp igm_init ops ->
  gm_step bp (gm_run bp igm_init ops) (OOptimise o m) = (s', Ok (fs, vs, ks)) ->
  fs = map snd (sort_key (filter (fun e => fst e <=? m) (run_pending bp igm_init ops []))).
Proof. exact optimise_hands_pending. Qed.

Theorem C03_conserved : forall bp ops,
  no_ub (gm_trace bp igm_init ops) -> opts_ok bp igm_init ops ->
  Permutation (i_facs (gm_run bp igm_init ops) ++ map snd (run_pending bp igm_init ops []))
              (map snd (run_creations bp igm_init ops)).
Proof. exact factors_conserved. Qed.

Theorem C03_record : forall bp ops,
  no_ub (gm_trace bp igm_init ops) ->
  gm_all_factors (i_gm (gm_run bp igm_init ops)) = map snd (sort_key (run_creations bp igm_init ops)).
Proof. exact all_factors_record. Qed.

Theorem C03_on_failure_refuted :
  exists ops f, In f (map snd (run_creations bp0 igm_init ops)) /\ no_ub (gm_trace bp0 igm_init ops) /\
    ~ In f (i_facs (gm_run bp0 igm_init ops)) /\
    (forall k, ~ In f (mentry k (g_new_fac (i_gm (gm_run bp0 igm_init ops))))).
Proof. exact factor_conservation_on_failure_refuted. Qed.

(* C04 *)
Theorem C04_factors_range : forall bp ops first last,
  no_ub (gm_trace bp igm_init ops) ->
  gm_factors first last (i_gm (gm_run bp igm_init ops)) =
  map snd (sort_key (filter (fun e => (first <=? fst e) && (fst e <=? last)) (run_creations bp igm_init ops))).
Proof. exact factors_range. Qed.

Theorem C04_factors_for_key : forall bp ops rk,
  no_ub (gm_trace bp igm_init ops) ->
  gm_factors_for_key rk (i_gm (gm_run bp igm_init ops)) =
  filter (fun f => zmem rk (f_vars f)) (map snd (sort_key (run_creations bp igm_init ops))).
Proof. exact factors_for_variable. Qed.

(* C05 *)
Theorem C05_handed_exact : forall bp ops o m,
  fresh bp igm_init ops -> no_ub (gm_trace bp igm_init ops) -> end_harmless (o_end o) -> idx_ok m = true ->
  let g := i_gm (gm_run bp igm_init ops) in
  exists g' fs vs, igm_extract o m g = (g', Ok (fs, vs)) /\
    (forall c n, idx_ok n = true -> state_sym c = true ->
       mget (raw c n) vs = (if n <=? m then mget (raw c n) (g_new_val g) else None) /\
       mget (raw c n) (g_new_val g') = (if n <=? m then None else mget (raw c n) (g_new_val g))) /\
    (forall n k, idx_ok n = true -> listed g k n ->
       mget (raw SymS n) vs = (if k <=? m then mget (raw SymS n) (g_new_val g) else None) /\
       mget (raw SymS n) (g_new_val g') = (if k <=? m then None else mget (raw SymS n) (g_new_val g))).
Proof. exact handed_exact. Qed.

Theorem C05_end_iterator_ub : forall bp ops m,
  let g := i_gm (gm_run bp igm_init ops) in
  idx_ok m = true -> (forall rk, In rk (mkeys (g_new_val g)) -> rk <= raw SymX m) ->
  gm_extract_values None m g = (g, UB).
Proof. exact end_iterator_ub. Qed.

Theorem C05_defined_refuted :
  exists ops, no_ub (gm_trace bp0 igm_init ops) /\
    snd (gm_step bp0 (gm_run bp0 igm_init ops) (OOptimise orc_strict 0)) = UB.
Proof. exact extraction_defined_refuted. Qed.

Theorem C05_reacquired_feature_refuted :
  forallb (fun o => is_ok o) (gm_trace bp0 igm_init reacquire) = true /\
  snd (gm_step bp0 (gm_run bp0 igm_init reacquire) (OOptimise (orc true) 4)) = Throw.
Proof. exact reacquired_feature_refuted. Qed.

(* C06 *)
Theorem C06_values_range : forall bp ops e first last,
  fresh bp igm_init ops -> no_ub (gm_trace bp igm_init ops) -> e < raw SymB 0 ->
  idx_ok first = true -> idx_ok last = true ->
  let g := i_gm (gm_run bp igm_init ops) in
  mmem first (g_ids g) = true ->
  exists vs, gm_values (Some e) first last g = Ok vs /\
    (forall c n, idx_ok n = true -> state_sym c = true ->
       mget (raw c n) vs = if (first <=? n) && (n <=? last) then mget (raw c n) (g_val g) else None) /\
    (forall n, idx_ok n = true ->
       (mget (raw SymS n) vs <> None <-> exists k, first <= k <= last /\ listed g k n) /\
       (mget (raw SymS n) vs <> None -> mget (raw SymS n) vs = mget (raw SymS n) (g_val g))).
Proof. exact values_range. Qed.

Theorem C06_no_frame_at_first : forall bp ops e first last,
  let g := i_gm (gm_run bp igm_init ops) in
  e < raw SymB 0 -> idx_ok first = true -> idx_ok last = true -> mmem first (g_ids g) = false ->
  exists vs, gm_values (Some e) first last g = Ok vs /\
    (forall n, idx_ok n = true -> mget (raw SymS n) vs = None).
Proof. exact no_frame_at_first. Qed.

Theorem C06_landmarks_refuted :
  exists ops k id, forallb (fun o => is_ok o) (gm_trace bp0 igm_init ops) = true /\
    listed (i_gm (gm_run bp0 igm_init ops)) k id /\ 0 <= k <= 5 /\
    exists vs, gm_values (Some 3) 0 5 (i_gm (gm_run bp0 igm_init ops)) = Ok vs /\ mget (raw SymS id) vs = None /\
      mget (raw SymS id) (g_val (i_gm (gm_run bp0 igm_init ops))) <> None.
Proof. exact values_range_landmarks_refuted. Qed.

(* C07; the named keys are C++ ints (keys_int); histories keep names unique *)
Theorem C07_lower_bound_attained : forall bp ops p k,
  let g := i_gm (gm_run bp igm_init ops) in
  keys_int g -> gm_minimum_key p g = Ok k ->
  (forall n kn pn, sget n (g_keys g) = Some (kn, pn) -> pn <= p -> k <= kn) /\
  (exists n pn, sget n (g_keys g) = Some (k, pn) /\ pn <= p).
Proof. exact (fun bp ops p k H => minimum_key_lower _ p k (run_names bp ops) H). Qed.

Theorem C07_throws_iff_none : forall bp ops p,
  let g := i_gm (gm_run bp igm_init ops) in
  keys_int g ->
  (gm_minimum_key p g = Throw <-> forall n kn pn, sget n (g_keys g) = Some (kn, pn) -> p < pn).
Proof. exact (fun bp ops p H => minimum_key_throws _ p (run_names bp ops) H). Qed.

Theorem C07_monotone : forall bp ops p p' k,
  let g := i_gm (gm_run bp igm_init ops) in
  keys_int g -> p <= p' -> gm_minimum_key p g = Ok k -> exists k', gm_minimum_key p' g = Ok k' /\ k' <= k.
Proof. exact (fun bp ops p p' k H => minimum_key_mono _ p p' k (run_names bp ops) H). Qed.

(* C08 *)
Theorem C08_named_key_value : forall bp n k p off pre post,
  forallb (fun op => negb (assigns n op)) post = true ->
  let g := i_gm (gm_run bp igm_init (pre ++ OSetNamedKey n k p :: post)) in
  gm_key n off g = Ok (k + count_inc n post + off) /\ gm_priority n g = Ok p.
Proof. exact named_key_value. Qed.

Theorem C08_unknown_name : forall bp n ops,
  forallb (fun op => negb (assigns n op)) ops = true ->
  let s := gm_run bp igm_init ops in
  (forall off, gm_key n off (i_gm s) = Throw) /\ gm_priority n (i_gm s) = Throw /\
  gm_step bp s (OIncrement n) = (s, Throw).
Proof. exact named_key_unknown. Qed.

(* C09 *)
Theorem C09_timestamp_last : forall bp k t pre post, 0 <= k ->
  forallb (fun op => negb (stamps k op)) post = true ->
  gm_timestamp k (i_gm (gm_run bp igm_init (pre ++ OSetTimestamp k t :: post))) = Ok t.
Proof. exact timestamp_last. Qed.

Theorem C09_timestamp_missing : forall bp k ops,
  k < 0 \/ forallb (fun op => negb (stamps k op)) ops = true ->
  gm_timestamp k (i_gm (gm_run bp igm_init ops)) = Throw.
Proof. exact timestamp_missing. Qed.

Theorem C09_time_between : forall k1 k2 t1 t2 g,
  gm_timestamp k1 g = Ok t1 -> gm_timestamp k2 g = Ok t2 -> gm_time_between k1 k2 g = Ok (t2 - t1).
Proof. exact time_between_value. Qed.

Theorem C09_time_between_throws : forall k1 k2 g,
  gm_time_between k1 k2 g = Throw <-> gm_timestamp k1 g = Throw \/ gm_timestamp k2 g = Throw.
Proof. exact time_between_throws. Qed.

Theorem C09_time_between_laws : forall k1 k2 k3 d12 d23 g,
  gm_time_between k1 k2 g = Ok d12 -> gm_time_between k2 k3 g = Ok d23 ->
  gm_time_between k1 k3 g = Ok (d12 + d23) /\ gm_time_between k2 k1 g = Ok (- d12) /\ gm_time_between k1 k1 g = Ok 0.
Proof. exact time_between_laws. Qed.

(* C10 *)
Theorem C10_pairs : forall bp ops k0 frames x id,
  stereo_calls ops = number k0 frames -> Forall msorted frames -> stereo_ok bp igm_init ops ->
  k0 <= x -> idx_ok x = true -> idx_ok id = true ->
  filter (is_pair x id) (map snd (run_creations bp igm_init ops)) =
  match seen k0 frames x id with
  | Some meas => if issome (seen k0 frames (x - 1) id) || issome (seen k0 frames (x + 1) id)
                 then [stereo_factor x id meas] else []
  | None => []
  end.
Proof. exact stereo_pairs. Qed.

Theorem C10_listed : forall bp ops k0 frames j id,
  stereo_calls ops = number k0 frames -> Forall msorted frames -> stereo_ok bp igm_init ops -> k0 <= j ->
  NoDup (mentry j (g_ids (i_gm (gm_run bp igm_init ops)))) /\
  (In id (mentry j (g_ids (i_gm (gm_run bp igm_init ops)))) <->
   seen k0 frames j id <> None /\ seen k0 frames (j - 1) id <> None /\ seen k0 frames (j - 2) id = None).
Proof. exact landmark_listed. Qed.

Theorem C10_listed_once : forall bp ops k0 frames j j' id,
  stereo_calls ops = number k0 frames -> Forall msorted frames -> stereo_ok bp igm_init ops ->
  never_reacquired k0 frames -> k0 <= j -> k0 <= j' ->
  In id (mentry j (g_ids (i_gm (gm_run bp igm_init ops)))) ->
  In id (mentry j' (g_ids (i_gm (gm_run bp igm_init ops)))) -> j = j'.
Proof. exact landmark_listed_once. Qed.

Theorem C10_landmark_value : forall bp ops k0 frames f,
  let k := k0 + Z.of_nat (List.length frames) in
  let s := gm_run bp igm_init ops in
  let s' := fst (gm_step bp s (OStereo k f)) in
  stereo_calls ops = number k0 frames -> Forall msorted frames -> msorted f -> stereo_ok bp igm_init ops ->
  is_ok (snd (gm_step bp s (OStereo k f))) = true ->
  forall id, idx_ok id = true ->
  match mget id f, seen k0 frames (k - 1) id with
  | Some meas, Some _ =>
      exists p c kal, gm_get SymX k (i_gm s') = Ok p /\ g_cam (i_gm s') = Some c /\ g_calib (i_gm s') = Some kal /\
        gm_get SymS id (i_gm s') = Ok (bp p c kal meas)
  | _, _ => gm_get SymS id (i_gm s') = gm_get SymS id (i_gm s)
  end.
Proof. exact landmark_value. Qed.

(* C11 *)
Theorem C11_gap_attaches_previous_pose : forall bp ops k f j f1 rest id meas p,
  let g := i_gm (gm_run bp igm_init ops) in
  msorted f -> snd (gm_create_stereo bp k f g) = Ok tt ->
  rev (g_feat g) = (j, f1) :: rest -> j < k -> idx_ok j = true -> idx_ok id = true ->
  mget id f = Some meas -> mget id f1 = Some p ->
  match rest with [] => True | (_, f2) :: _ => mget id f2 = None end ->
  let new := flat_map (track_factors k) (stereo_done k f g) in
  filter (is_pair (k - 1) id) new = [stereo_factor (k - 1) id p] /\
  (filter (is_pair j id) new = [stereo_factor j id p] <-> j = k - 1).
Proof. exact gap_previous_pose. Qed.

Theorem C11_missed_keys_refuted :
  forallb (fun o => is_ok o) (gm_trace bp0 igm_init gap) = true /\
  map snd (run_creations bp0 igm_init gap) = [stereo_factor 1 1 41; stereo_factor 2 1 42].
Proof. exact missed_keys_refuted. Qed.

(* C12 *)
Theorem C12_missing_pose_fails : forall bp ops k f,
  let s := gm_run bp igm_init ops in
  g_feat (i_gm s) <> [] -> mmem k (g_feat (i_gm s)) = false ->
  gm_has SymX k (i_gm s) <> Ok true ->
  snd (gm_step bp s (OStereo k f)) = Throw /\
  g_val (i_gm (fst (gm_step bp s (OStereo k f)))) = g_val (i_gm s) /\
  mmem k (g_feat (i_gm (fst (gm_step bp s (OStereo k f))))) = true.
Proof. exact missing_pose. Qed.

Theorem C12_retry_always_fails : forall bp ops ops' k f,
  mmem k (g_feat (i_gm (gm_run bp igm_init ops))) = true ->
  let s' := gm_run bp igm_init (ops ++ ops') in gm_step bp s' (OStereo k f) = (s', Throw).
Proof. exact retry_after. Qed.

Theorem C12_success_registers_all : forall bp ops k f k1 fi k2 im1 rest,
  let g := i_gm (gm_run bp igm_init ops) in
  snd (gm_create_stereo bp k f g) = Ok tt ->
  rev (mput k f (g_feat g)) = (k1, fi) :: (k2, im1) :: rest ->
  let im2 := match rest with [] => None | (_, f2) :: _ => Some f2 end in
  mmem k (g_feat g) = false /\ idx_ok k = true /\
  (exists p c, mget (raw SymX k) (g_val g) = Some p /\ g_cam g = Some c) /\
  forallb (track_ok k) (tracks_of fi im1 im2) = true /\
  stereo_done k f g = tracks_of fi im1 im2 /\
  (tracks_of fi im1 im2 = [] \/ exists kal, g_calib g = Some kal).
Proof. exact success_registers_all. Qed.

(* C13 *)
Theorem C13_window_exact : forall bp ops o m s' fs vs ks,
  let s := gm_run bp igm_init ops in
  let old := margs (gm_trace bp igm_init ops) in
  solver_ok bp igm_init ops -> gm_step bp s (OOptimise o m) = (s', Ok (fs, vs, ks)) ->
  i_marg_on s = true -> i_marg_key s <= m - i_window s ->
  (forall c n, idx_ok n = true ->
     (In (raw c n) ks <-> n <= m - i_window s /\ In (raw c n) (mkeys (g_val (i_gm s))) /\ ~ In (raw c n) old)) /\
  (forall c n, idx_ok n = true -> In (raw c n) (i_vars s') -> m - i_window s < n).
Proof. exact window_exact. Qed.

Theorem C13_once : forall bp ops, solver_ok bp igm_init ops -> NoDup (margs (gm_trace bp igm_init ops)).
Proof. exact marginalised_once. Qed.

Theorem C13_off : forall bp ops o m s' fs vs ks,
  let s := gm_run bp igm_init ops in
  gm_step bp s (OOptimise o m) = (s', Ok (fs, vs, ks)) ->
  i_marg_on s = false \/ m - i_window s < i_marg_key s -> ks = [].
Proof. exact window_off. Qed.

Theorem C13_beyond_throws : forall bp o k s, i_opt s < k -> gm_step bp s (OMarginalise o k) = (s, Throw).
Proof. exact marginalise_beyond. Qed.

(* C14: C13_window_exact with c = SymS shows that only the id matters; witness: *)
Theorem C14_landmark_window_refuted :
  let s := gm_run bp0 igm_init lm_marg in
  forallb (fun o => is_ok o) (gm_trace bp0 igm_init lm_marg) = true /\ i_window s = 2 /\
  listed (i_gm s) 5 0 /\ listed (i_gm s) 5 9 /\
  exists s' fs vs ks, gm_step bp0 s (OOptimise (orc true) 5) = (s', Ok (fs, vs, ks)) /\
    In (raw SymS 0) ks /\ ~ In (raw SymS 9) ks.
Proof. exact landmark_window_refuted. Qed.

Theorem C10_landmarks_all : forall bp ops, wf_run bp igm_init ops ->
  exists l, gm_stereo_landmarks (-1) (i_gm (gm_run bp igm_init ops)) = Ok l /\
    forall id, 0 <= id < 2 ^ 56 ->
      mget id l = match gm_get SymS id (i_gm (gm_run bp igm_init ops)) with Ok v => Some v | _ => None end.
Proof. exact landmarks_all. Qed.

Theorem C10_landmarks_at : forall bp ops k, wf_run bp igm_init ops -> k <> -1 ->
  exists l, gm_stereo_landmarks k (i_gm (gm_run bp igm_init ops)) = Ok l /\
    forall id v, mget id l = Some v <->
      In id (mentry k (g_ids (i_gm (gm_run bp igm_init ops)))) /\ gm_get SymS id (i_gm (gm_run bp igm_init ops)) = Ok v.
Proof. exact landmarks_at. Qed.

(* C54; the calling contract wf_op is in GmReady.v; wf0_ok (GmReadyEx.v) is a non-trivial run that meets it *)
Theorem C54_well_formed_never_fails : forall bp ops,
  wf_run bp igm_init ops -> Forall (fun r => is_ok r = true) (gm_trace bp igm_init ops).
Proof. exact well_formed_never_fails. Qed.

Print Assumptions C01_values_are_last_writes.
Print Assumptions C01_frame.
Print Assumptions C02_pending_agrees.
Print Assumptions C02_handed_values_current.
Print Assumptions C03_hands_pending.
Print Assumptions C03_conserved.
Print Assumptions C03_record.
Print Assumptions C03_on_failure_refuted.
Print Assumptions C04_factors_range.
Print Assumptions C04_factors_for_key.
Print Assumptions C05_handed_exact.
Print Assumptions C05_end_iterator_ub.
Print Assumptions C05_defined_refuted.
Print Assumptions C05_reacquired_feature_refuted.
Print Assumptions C06_values_range.
Print Assumptions C06_no_frame_at_first.
Print Assumptions C06_landmarks_refuted.
Print Assumptions C07_lower_bound_attained.
Print Assumptions C07_throws_iff_none.
Print Assumptions C07_monotone.
Print Assumptions C08_named_key_value.
Print Assumptions C08_unknown_name.
Print Assumptions C09_timestamp_last.
Print Assumptions C09_timestamp_missing.
Print Assumptions C09_time_between.
Print Assumptions C09_time_between_throws.
Print Assumptions C09_time_between_laws.
Print Assumptions C10_pairs.
Print Assumptions C10_listed.
Print Assumptions C10_listed_once.
Print Assumptions C10_landmark_value.
Print Assumptions C10_landmarks_all.
Print Assumptions C10_landmarks_at.
Print Assumptions C11_gap_attaches_previous_pose.
Print Assumptions C11_missed_keys_refuted.
Print Assumptions C12_missing_pose_fails.
Print Assumptions C12_retry_always_fails.
Print Assumptions C12_success_registers_all.
Print Assumptions C13_window_exact.
Print Assumptions C13_once.
Print Assumptions C13_off.
Print Assumptions C13_beyond_throws.
Print Assumptions C14_landmark_window_refuted.
Print Assumptions C54_well_formed_never_fails.
