(* Properties C15-C20, C55, C56 (back end). Proofs in the Be*.v files; concrete cases in BeExamples.v. *)
From Verif Require Import Base GmModel GmSpec GmReadyEx GmExamples BeModel BeSpec BeProofs BeAbs BeInv BeHealthy BeLive BeFair BeMore BeExamples.

(* C15 *)
Theorem C15_mutual_exclusion : forall bp c s t t', reachable bp c s ->
  in_section (pget (y_ctl s) t) -> in_section (pget (y_ctl s) t') -> t = t'.
Proof. exact mutual_exclusion. Qed.

Theorem C15_only_owner : forall bp c s a s', reachable bp c s -> sys_step bp c s a = Some s' ->
  (y_g s', y_log s', y_ev s') <> (y_g s, y_log s, y_ev s) -> exists t, a = AStep t /\ y_mutex s = Some t.
Proof. exact only_owner. Qed.

Theorem C15_serialisable : forall bp c s, reachable bp c s -> ser_reachable bp c (settle bp s).
Proof. exact serialisable. Qed.

Theorem C15_lock_step : forall bp c tau hist s, environment c tau -> hreach bp c tau hist s -> y_mutex s = None -> odoms (y_ev s) <> [] ->
  exists K u, i_opt (y_g s) = K /\ 0 <= K /\ key_is "imu"%string s u /\ K <= u <= K + 1 /\
    (c_reg c = true -> exists r, key_is "reg"%string s r /\ K <= r <= u) /\
    (c_stereo c = true -> exists k, key_is "stereo"%string s k /\ -1 <= k <= u /\ (1 <= K -> K <= k)) /\
    (c_baro c = true -> exists b, key_is "barometer"%string s b /\ 0 <= b <= u + 1) /\
    (forall k, 0 <= k <= int_max -> (is_ok (gm_get SymX k (i_gm (y_g s))) = true <-> k <= u)) /\
    (forall k, 0 <= k <= u -> gm_timestamp k (i_gm (y_g s)) = Ok (tau k)).
Proof. exact lock_step. Qed.

Theorem C15_callbacks_never_fail : forall bp c tau hist s t leak, environment c tau -> hreach bp c tau hist s -> pget (y_ctl s) t <> CFail leak.
Proof. exact never_fails. Qed.

(* C16 *)
Theorem C16_optimised_once_in_order : forall bp c tau hist s, environment c tau -> hreach bp c tau hist s ->
  (exists K, -1 <= K /\ opts (y_log s) = zrange 0 K) /\
  (forall l1 o k l2, y_log s = l1 ++ OOptimise o k :: l2 ->
     opts l1 = zrange 0 (k - 1) /\
     (1 <= k -> (c_imu c = true -> crts FImu l1 = zrange 1 k) /\ (c_reg c = true -> crts FBetweenPose l1 = zrange 1 k) /\
                (c_stereo c = true -> stereo_incs l1 = k + 1))).
Proof. exact optimised_in_order. Qed.

Theorem C16_published_in_order : forall bp c tau hist s, environment c tau -> hreach bp c tau hist s ->
  (exists K, odoms (y_ev s) = map (fun k => (k, tau k)) (zrange 0 K)) /\ (exists u, trans (y_ev s) = map tau (zrange 0 u)) /\
  (y_mutex s = None -> map fst (odoms (y_ev s)) = opts (y_log s)).
Proof. exact published_in_order. Qed.

(* C17 *)
Theorem C17_progress : forall bp c tau x acts h, environment c tau -> execution bp c tau x acts h -> strongly_fair bp c x acts -> enough_workers c ->
  forall n k, supplied c tau (h n) k -> exists m, (n <= m)%nat /\ y_mutex (x m) = None /\ In k (opts (y_log (x m))).
Proof. exact fair_progress. Qed.

Theorem C17_quiescent_done : forall bp c tau hist s, environment c tau -> enough_workers c -> hreach bp c tau hist s -> quiescent bp c s ->
  forall k, supplied c tau hist k -> In k (opts (y_log s)).
Proof. exact quiescent_done. Qed.

(* C18 *)
Theorem C18_who_leaks : forall bp c s t, reachable bp c s -> y_mutex s = Some t ->
  in_section (pget (y_ctl s) t) \/ (pget (y_ctl s) t = CFail true /\ (t = TImu \/ t = TStereo \/ t = TBaro)).
Proof. exact who_leaks. Qed.

Theorem C18_leak_is_forever : forall bp c t acts s s', reachable bp c s -> y_mutex s = Some t -> pget (y_ctl s) t = CFail true -> sys_run bp c s acts = Some s' ->
  y_mutex s' = Some t /\ y_g s' = y_g s /\ y_log s' = y_log s /\ y_ev s' = y_ev s.
Proof. intros bp c t acts s s' R. exact (leaked_forever bp c t acts s s' (reachable_excl bp c s R)). Qed.

Theorem C18_imu_before_init_refuted : exists s, locked_out (full 4) s TImu /\ y_ok s = true.
Proof. exact imu_before_init_leaks. Qed.
Theorem C18_barometer_variance_refuted : exists s, locked_out (full 4) s TBaro /\ y_ok s = true.
Proof. exact baro_variance_leaks. Qed.
Theorem C18_shutdown_refuted : exists s m, locked_out (full 4) s TStereo /\ pget (y_ctl s) TReg = CWant m LFirst.
Proof. exact shutdown_leaks. Qed.

(* C19 *)
Theorem C19_barometer_chain : forall bp c tau hist s, environment c tau -> hreach bp c tau hist s -> y_mutex s = None ->
  exists used waiting : list Z,
    map stamp (on TBaro hist) = map tau used ++ waiting /\
    crts FBaro (y_log s) = used /\ crts FPriorBaro (y_log s) = firstn 1 used /\
    crts FBaroBias (y_log s) = zrange 1 (last used 0) /\
    (forall k, 0 <= k <= int_max -> (is_ok (gm_get SymP k (i_gm (y_g s))) = true <-> used <> [] /\ k <= last used 0)).
Proof. exact baro_chain. Qed.

(* C20 *)
Theorem C20_valid_covariance_rejected : forall bp c ok l t tf ze n g log ev, exists g' log',
  prun bp (section c ok (MReg t tf true ze n) l) g log ev = (g', log', ev, RThrow) /\ crts FBetweenPose log' = crts FBetweenPose log.
Proof. exact reg_valid_throws. Qed.

(* C55 *)
Theorem C55_published_state_is_current : forall bp c s t s', reachable bp c s -> (c_imu c = true \/ t <> TStereo) -> ser_step bp c s (SSection t) = Some s' ->
  exists evs, y_ev s' = y_ev s ++ evs /\ current (y_g s') evs.
Proof. exact section_shows. Qed.

Theorem C55_stereo_velocity_refuted : exists hist s k t p v v', environment stereo_only tau0 /\ hreach bp0 stereo_only tau0 hist s /\ y_mutex s = None /\
  In (EOdom k t p v) (y_ev s) /\ (forall k', In k' (opts (y_log s)) -> k' <= k) /\ gm_get SymX k (i_gm (y_g s)) = Ok p /\ gm_get SymV k (i_gm (y_g s)) = Ok v' /\ v <> v'.
Proof. exact stale_velocity. Qed.

(* C56 *)
Theorem C56_three_workers_refuted : exists c hist s, environment c tau0 /\ c_pool c = 3%nat /\ hreach bp0 c tau0 hist s /\ supplied c tau0 hist 1 /\
  forall acts s', Forall internal acts -> sys_run bp0 c s acts = Some s' -> ~ In 1 (opts (y_log s')).
Proof. exact deadlock. Qed.
Theorem C56_one_worker_lidar_refuted : exists hist s, environment (lidar 1) tau0 /\ hreach bp0 (lidar 1) tau0 hist s /\ supplied (lidar 1) tau0 hist 1 /\
  forall acts s', Forall internal acts -> sys_run bp0 (lidar 1) s acts = Some s' -> ~ In 1 (opts (y_log s')).
Proof. exact deadlock_lidar. Qed.
Theorem C56_enough_workers : forall bp c tau x acts h, environment c tau -> execution bp c tau x acts h -> strongly_fair bp c x acts -> enough_workers c ->
  forall n k, supplied c tau (h n) k -> exists m, (n <= m)%nat /\ In k (opts (y_log (x m))).
Proof. intros bp c tau x acts h H1 H2 H3 H4 n k H5. destruct (fair_progress bp c tau x acts h H1 H2 H3 H4 n k H5) as (m & Hm & _ & H). exists m. auto. Qed.
Print Assumptions C15_mutual_exclusion.
Print Assumptions C15_only_owner.
Print Assumptions C15_serialisable.
Print Assumptions C15_lock_step.
Print Assumptions C15_callbacks_never_fail.
Print Assumptions C16_optimised_once_in_order.
Print Assumptions C16_published_in_order.
Print Assumptions C17_progress.
Print Assumptions C17_quiescent_done.
Print Assumptions C18_who_leaks.
Print Assumptions C18_leak_is_forever.
Print Assumptions C18_imu_before_init_refuted.
Print Assumptions C18_barometer_variance_refuted.
Print Assumptions C18_shutdown_refuted.
Print Assumptions C19_barometer_chain.
Print Assumptions C20_valid_covariance_rejected.
Print Assumptions C55_published_state_is_current.
Print Assumptions C55_stereo_velocity_refuted.
Print Assumptions C56_three_workers_refuted.
Print Assumptions C56_one_worker_lidar_refuted.
Print Assumptions C56_enough_workers.
