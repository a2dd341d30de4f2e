(* Properties C21-C27, C49, C57, C58 (front end). Proofs in Imu*.v, Fe*.v, Interp.v; concrete cases in FeExamples.v. *)
From Verif Require Import Base ImuModel ImuSpec ImuProofs ImuMore FeModel FeSpec FeBaro FeProofs FeImu FeLive FeExamples.
From Coq Require Import Reals.
From Verif Require Import Interp.
Open Scope Z_scope.

(* C21 *)
Theorem C21_total : forall b start stop l, ordered b -> start <= stop -> integrate_imu b start stop = Ok l -> total l = stop - start.
Proof. exact integrate_total. Qed.
Theorem C21_follows : forall b start stop l t, ordered b -> integrate_imu b start stop = Ok l -> start <= t < stop ->
  applied start t l = hold t b None /\ hold t b None <> None.
Proof. exact integrate_applied. Qed.
Theorem C21_positive : forall b start stop l, integrate_imu b start stop = Ok l -> Forall (fun x : step => 0 < snd x) l.
Proof. exact integrate_positive. Qed.
Theorem C21_in_order : forall b start stop l, integrate_imu b start stop = Ok l -> sublist (map fst l) (map snd b).
Proof. exact integrate_sublist. Qed.

(* C22 *)
Theorem C22_fails_exactly : forall b start stop, strict b -> (exists x r, b = x :: r /\ fst x <= start) -> start < stop ->
  (integrate_imu b start stop = Throw <-> (List.length b < 2)%nat \/ exists x, In x b /\ fst x = stop) /\ integrate_imu b start stop <> UB.
Proof. exact integrate_fails. Qed.
Theorem C22_zero_step_refuted : exists b start stop, strict b /\ start < stop /\ (2 <= List.length b)%nat /\ (exists x, In x b /\ fst x <= start) /\ integrate_imu b start stop = Throw.
Proof. exact zero_step_refuted. Qed.
Theorem C22_fails_exactly_repeated : forall b start stop, ordered b -> (exists x r, b = x :: r /\ fst x <= start) -> start < stop ->
  (integrate_imu b start stop = Throw <-> (List.length b < 2)%nat \/ (exists x, In x b /\ fst x = stop) \/ repeated start stop b) /\ integrate_imu b start stop <> UB.
Proof. exact integrate_fails_ordered. Qed.
Theorem C22_late_start : forall b start stop, start <> stop -> (forall x, In x b -> start < fst x) -> integrate_imu b start stop = Throw.
Proof. exact integrate_late_start. Qed.

(* C23 *)
Theorem C23_keeps : forall t b, ordered b -> delete_old t b = filter (fun x => t <=? fst x) b.
Proof. exact delete_old_filter. Qed.
Theorem C23_suffix : forall t b, exists p, b = p ++ delete_old t b /\ (forall x, In x p -> fst x < t).
Proof. exact delete_old_suffix. Qed.
Theorem C23_hold_kept : forall t t0 b, ordered b -> t0 <= t -> (exists x, In x b /\ fst x = t0) -> hold t (delete_old t0 b) None = hold t b None.
Proof. exact hold_delete. Qed.
Theorem C23_longest_prefix : forall t b, exists p, b = p ++ delete_old t b /\ (forall x, In x p -> fst x < t) /\ match delete_old t b with [] => True | x :: _ => t <= fst x end.
Proof. exact delete_old_longest. Qed.
Theorem C23_idempotent : forall t b, delete_old t (delete_old t b) = delete_old t b.
Proof. exact delete_old_idempotent. Qed.
Theorem C23_monotone : forall t t' b, t <= t' -> exists p, delete_old t b = p ++ delete_old t' b.
Proof. exact delete_old_monotone. Qed.

(* C24 *)
Theorem C24_defined : forall v1 v2 t1 t2 t, interpolate v1 v2 t1 t2 t <> UB /\ (interpolate v1 v2 t1 t2 t = Throw <-> ~ (t1 < t2 /\ t1 <= t <= t2)).
Proof. exact interpolate_defined. Qed.
Theorem C24_value : forall v1 v2 t1 t2 t, t1 < t2 -> t1 <= t <= t2 ->
  exists v, interpolate v1 v2 t1 t2 t = Ok v /\ on_line t1 v1 t2 v2 t v /\ between v1 v2 v /\ (t = t1 -> v = v1) /\ (t = t2 -> v = v2) /\
    (forall a b : R, v1 = (a * IZR t1 + b)%R -> v2 = (a * IZR t2 + b)%R -> v = (a * IZR t + b)%R) /\
    (forall t', t <= t' <= t2 -> (v1 <= v2)%R -> exists v', interpolate v1 v2 t1 t2 t' = Ok v' /\ (v <= v')%R).
Proof. exact interpolation. Qed.
Theorem C24_pressure : forall a b t, p_stamp a < p_stamp b -> p_stamp a <= t <= p_stamp b ->
  exists p, interpolate_pressure a b t = Ok p /\ p_stamp p = t /\ p_frame p = p_frame a /\ on_line (p_stamp a) (p_val a) (p_stamp b) (p_val b) t (p_val p) /\
    between (p_val a) (p_val b) (p_val p) /\ on_line (p_stamp a) (p_var a) (p_stamp b) (p_var b) t (p_var p) /\ (0 <= p_var a -> 0 <= p_var b -> 0 <= p_var p)%R.
Proof. exact pressure_interpolation. Qed.

(* C25 *)
Theorem C25_state_times : forall c l s, strict (in_clouds l) -> fe_run c fe_init l = Ok s ->
  exists times, FeSpec.up times /\ out_inits (f_out s) = firstn 1 times /\ out_spans (f_out s) = pairs times /\
    (exists rest, times = map (fun x => from_pcl (fst x)) (out_clouds (f_out s)) ++ rest /\ (List.length rest <= 1)%nat) /\
    (forall x, In x (out_clouds (f_out s)) -> In (snd x) (in_clouds l) /\ fst (snd x) <= fst x) /\
    (forall a x y b, out_clouds (f_out s) = a ++ x :: y :: b -> fst x < fst (snd y)).
Proof. exact timeline. Qed.

(* C26 *)
Theorem C26_one_to_one : forall m l, strict (m :: measurements l) -> FeBaro.increasing (states l) ->
  exists s o, bar_run (mkBar [] []) (BM m :: l) = Ok (s, o) /\ map fst o ++ b_ts s = states l /\ Forall (faithful (m :: measurements l)) o.
Proof. exact baro_one_to_one. Qed.
Theorem C26_backlog_drained : forall (new : list (Z * Z)) s, b_buf s <> [] -> strict (b_buf s ++ new) -> FeBaro.increasing (b_ts s) -> (forall m t, In m new -> In t (b_ts s) -> t < fst m) ->
  exists s' o, bar_run s (map BM new) = Ok (s', o) /\ map fst o = firstn (List.length new) (b_ts s) /\ b_ts s' = skipn (List.length new) (b_ts s).
Proof. exact drain. Qed.

(* C27 *)
Theorem C27_empty_buffer_refuted : (forall t, bar_run (mkBar [] []) [BS t] = UB) /\ exists l, strict (in_clouds l) /\ strict (in_imu l) /\ fe_run (mkFcfg false false true) fe_init l = UB.
Proof. exact empty_buffer_refuted. Qed.

(* C49 *)
Theorem C49_defined : forall eps a b t, interpolate_imu eps a b t <> UB /\ (interpolate_imu eps a b t = Throw <-> ~ m_t a <= t <= m_t b).
Proof. exact imu_defined. Qed.
Theorem C49_value : forall eps a b t, (0 < eps)%R -> m_t a < m_t b -> m_t a <= t <= m_t b -> exists r, interpolate_imu eps a b t = Ok r /\ m_t r = t /\
  between3 (m_w a) (m_w b) (m_w r) /\ between3 (m_a a) (m_a b) (m_a r) /\ on_line3 (m_t a) (m_w a) (m_t b) (m_w b) t (m_w r) /\ on_line3 (m_t a) (m_a a) (m_t b) (m_a b) t (m_a r) /\
  (2 * (t - m_t a) <= m_t b - m_t a -> m_covs r = m_covs a /\ m_frame r = m_frame a) /\
  (m_t b - m_t a < 2 * (t - m_t a) -> m_covs r = m_covs b /\ m_frame r = m_frame b) /\
  ((m_q a = qzero \/ m_q b = qzero) -> m_q r = qzero) /\
  (qdot (m_q a) (m_q a) = 1%R -> qdot (m_q b) (m_q b) = 1%R ->
     ((Rabs (qdot (m_q a) (m_q b)) < 1 - eps)%R -> qdot (m_q r) (m_q r) = 1%R) /\ (t = m_t a -> m_q r = m_q a) /\ (t = m_t b -> m_q r = m_q b \/ m_q r = qneg (m_q b))).
Proof. exact imu_interpolation. Qed.
Theorem C49_neighbours : forall t b, ordered b -> imu_neighbours t b <> UB /\
  (imu_neighbours t b = Throw <-> ~ ((2 <= List.length b)%nat /\ (exists x, In x b /\ fst x <= t) /\ (exists x, In x b /\ t <= fst x))) /\
  (forall q r, imu_neighbours t b = Ok (q, r) -> (exists b1 b2, b = b1 ++ q :: r :: b2) /\ fst q <= t <= fst r).
Proof. exact neighbours_spec. Qed.

(* C57 *)
Theorem C57_lost_wakeup : forall c l s s' u sw new, f_pc s = PBias u sw new -> f_pst s < f_bias s -> (forall t, In (IOdom t) l -> f_pst s < t) -> fe_run c s l = Ok s' ->
  f_pc s' = PBias u sw new /\ out_clouds (f_out s') = out_clouds (f_out s) /\ f_pst s' = f_pst s.
Proof. exact lost_wakeup. Qed.
Theorem C57_open_loop_refuted : exists l s u sw new, calm_run cfg_lidar [] fe_init l /\ fe_run cfg_lidar fe_init l = Ok s /\ f_pc s = PBias u sw new /\ f_pst s < f_bias s /\
  forall l' s', (forall t, In (IOdom t) l' -> f_pst s < t) -> fe_run cfg_lidar s l' = Ok s' -> out_clouds (f_out s') = out_clouds (f_out s).
Proof. exact open_loop_refuted. Qed.
Theorem C57_closed_loop : forall c l s s' u sw new, f_pc s = PBias u sw new -> f_bias s = f_pst s -> (forall t, In (IOdom t) l -> t = f_pst s) -> ~ In IPoll l -> fe_run c s l = Ok s' ->
  f_pc s' = PBias u sw new /\ f_bias s' = f_pst s' /\ f_prev s' = f_prev s.
Proof. exact wait_kept. Qed.
Theorem C57_cloud_finishes : forall c ins s u sw new pu psw, calm_run c [] fe_init ins -> fe_run c fe_init ins = Ok s -> f_pc s = PBias u sw new -> f_prev s = Some (pu, psw) -> f_bias s = f_pst s ->
  from_pcl pu + psw <= f_last s -> (forall m, In m (in_imu ins) -> fst m <> from_pcl pu /\ fst m <> from_pcl pu + psw) -> (fc_baro c = true -> in_baro ins <> []) ->
  exists s', fe_run c s [IPoll; IPoll; IPoll] = Ok s' /\ f_pc s' = PIdle /\ f_pst s' = new /\ out_clouds (f_out s') = out_clouds (f_out s) ++ [(to_pcl new, (pu, psw))].
Proof. exact cloud_finishes_run. Qed.

(* C58 *)
Theorem C58_selection : forall prev new b l, prev < new -> strict b -> (exists x, In x b /\ fst x <= prev) -> select_imu prev new b = Ok l ->
  ((exists y, In y b /\ prev < fst y < new) -> exists steps, integrate_imu l prev new = Ok steps /\ total steps = new - prev /\
     (forall t, prev <= t < new -> applied prev t steps = hold t b None)) /\
  ((forall y, In y b -> ~ prev < fst y < new) -> integrate_imu l prev new = Throw).
Proof. exact select_integrate. Qed.
Theorem C58_under_contract : forall c l, calm_run c [] fe_init l -> exists s, fe_run c fe_init l = Ok s /\ contents (in_imu l) None (f_out s) /\
  (forall steps, f_pre s = Some steps -> steps = since (f_bias s) (in_imu l) /\ total steps = lst (in_imu l) - f_bias s) /\
  (fc_baro c = true -> exists rest, map fst (out_baros (f_out s)) ++ b_ts (f_bar s) ++ rest = map (fun x => from_pcl (fst x)) (out_clouds (f_out s)) /\ (List.length rest <= 1)%nat /\
     Forall (faithful (in_baro l)) (out_baros (f_out s))).
Proof. exact calm_outcome. Qed.
Theorem C58_contract_needed_refuted :
  (exists l, strict (in_imu l) /\ strict (in_clouds l) /\ fe_run (mkFcfg true false false) fe_init l = UB) /\
  (exists l, strict (in_imu l) /\ strict (in_clouds l) /\ fe_run cfg_lidar fe_init l = Throw) /\
  (exists l s a b d, strict (in_imu l) /\ strict (in_clouds l) /\ fe_run cfg_lidar fe_init l = Ok s /\ In (OArray a b d) (f_out s) /\ integrate_imu d a b = Throw).
Proof. exact contract_needed. Qed.

Print Assumptions C21_total. Print Assumptions C21_follows. Print Assumptions C22_fails_exactly. Print Assumptions C22_zero_step_refuted.
Print Assumptions C23_keeps. Print Assumptions C23_suffix. Print Assumptions C23_hold_kept.
Print Assumptions C21_positive. Print Assumptions C21_in_order. Print Assumptions C22_fails_exactly_repeated. Print Assumptions C22_late_start.
Print Assumptions C23_longest_prefix. Print Assumptions C23_idempotent. Print Assumptions C23_monotone.
Print Assumptions C24_defined. Print Assumptions C24_value. Print Assumptions C24_pressure. Print Assumptions C25_state_times.
Print Assumptions C26_one_to_one. Print Assumptions C26_backlog_drained. Print Assumptions C27_empty_buffer_refuted.
Print Assumptions C49_defined. Print Assumptions C49_value. Print Assumptions C49_neighbours.
Print Assumptions C57_lost_wakeup. Print Assumptions C57_open_loop_refuted. Print Assumptions C57_closed_loop. Print Assumptions C57_cloud_finishes.
Print Assumptions C58_selection. Print Assumptions C58_under_contract. Print Assumptions C58_contract_needed_refuted.
