(* Threads of the node *)
From Coq Require Import List Lia.
From Verif Require Import Base ImuModel ImuSpec ImuProofs FeModel FeSpec FeBaro FeProofs FeImu FeLive.
From Verif Require Import RegModel RegSpec RegProofs RegMore.
From Verif Require Import GmModel GmReady BeModel BeSpec BeProofs BeAbs BeInv BeSect BeHealthy BeLive LpModel LpSpec LpProofs LpInv LpLive PlModel PlSpec.
Import ListNotations.
Local Open Scope Z_scope.

(* a subscription that was not made stays idle *)
Lemma micro_other bp s t t' m pr : t' <> t -> pget (y_ctl (micro bp s t m pr)) t' = pget (y_ctl s) t' /\ y_q (micro bp s t m pr) = y_q s.
Proof.
  intros N. destruct pr as [o| |op k|k|e k]; cbn [micro].
  - destruct o; cbn [finish y_ctl y_q]; rewrite pget_upd_ne by exact N; auto.
  - cbn [throws y_ctl y_q]. rewrite pget_upd_ne by exact N. auto.
  - destruct (gm_step bp (y_g s) op) as [g []]; cbn [throws y_ctl y_q]; rewrite ?pget_upd_ne by exact N; auto.
  - cbn [y_ctl y_q]. rewrite pget_upd_ne by exact N. auto.
  - cbn [y_ctl y_q]. rewrite pget_upd_ne by exact N. auto.
Qed.
Lemma stays_idle bp c t : subscribed c t = false -> forall acts s s', pget (y_ctl s) t = CIdle -> pget (y_q s) t = [] -> sys_run bp c s acts = Some s' -> pget (y_ctl s') t = CIdle.
Proof.
  intros Ht. induction acts as [|a acts IH]; intros s s' Hc Hq E; cbn [sys_run] in E; [injection E as <-; exact Hc|]. destruct (sys_step bp c s a) as [s1|] eqn:E1; [|discriminate].
  assert (X : pget (y_ctl s1) t = CIdle /\ pget (y_q s1) t = []); [|destruct X; eapply IH; eauto]. clear IH E s'.
  destruct a as [m|t'|t'|t'|]; cbn [sys_step] in E1.
  - destruct (subscribed c (msg_tid m)) eqn:Es; [|discriminate]. injection E1 as <-. cbn [y_ctl y_q]. rewrite pget_upd_ne by congruence. auto.
  - destruct (pget (y_ctl s) t') eqn:Ec; try discriminate. destruct (pget (y_q s) t') as [|m q] eqn:Eq; [discriminate|]. destruct (worker_free c s); [|discriminate]. injection E1 as <-. cbn [y_ctl y_q]. rewrite !pget_upd_ne by congruence. auto.
  - destruct (pget (y_ctl s) t') eqn:Ec; try discriminate. destruct (y_mutex s); [discriminate|]. injection E1 as <-. cbn [y_ctl y_q]. rewrite !pget_upd_ne by congruence. auto.
  - destruct (pget (y_ctl s) t') eqn:Ec; try discriminate.
    + injection E1 as <-. cbn [y_ctl y_q]. rewrite !pget_upd_ne by congruence. auto.
    + assert (N : t <> t') by congruence. injection E1 as <-. match goal with |- context [micro bp s t' ?m ?q] => destruct (micro_other bp s t' t m q N) as [-> ->] end. auto.
  - injection E1 as <-. auto.
Qed.

Section Pool.
Variable bp : Z -> Z -> Z -> Z -> Z.
Variable al_s al_m : Z -> Z -> Z -> Z.
Variable fc : fcfg.
Variable c : config.
Variable s2m : bool.
Notation lstep := (lstep bp al_s al_m fc c s2m).
Notation pstep := (pstep bp al_s al_m fc c s2m).
Notation lreach := (lreach bp al_s al_m fc c s2m).
Notation preach := (preach bp al_s al_m fc c s2m).
Notation pool_rest := (pool_rest bp al_s al_m fc c s2m).

(* the threads only rule moves out *)
Theorem pool_step s a r : pstep s a = Some r -> lstep s a = Some r.
Proof. unfold PlModel.pstep. destruct (_ && _); [discriminate|auto]. Qed.
Theorem pool_reach p s : preach p s -> lreach p s.
Proof. induction 1 as [|p s a s' H IH F E]; [constructor|]. econstructor; eauto. apply pool_step. exact E. Qed.

(* never more threads than there are *)
Lemma held_le b : (held b <= 1)%nat. Proof. destruct b; cbn; lia. Qed.
Lemma workers_le s : (workers s <= 5)%nat.
Proof. rewrite workers_sum. unfold b2n. repeat match goal with |- context [busy ?x] => destruct (busy x) end; cbn; lia. Qed.
Lemma busy_le s : (pool_busy s <= 8)%nat.
Proof. unfold pool_busy. pose proof (workers_le (l_b s)). pose proof (held_le (fe_held (l_f s))). pose proof (held_le (s2s_held (l_r s))). pose proof (held_le (s2m_held (l_r s))). lia. Qed.
(* with more threads than callbacks that keep one, threads do not matter *)
Theorem pool_enough s a : (9 <= c_pool c)%nat -> pstep s a = lstep s a.
Proof.
  intros H. unfold PlModel.pstep. pose proof (busy_le s). replace (Nat.ltb (pool_busy s) (c_pool c)) with true by (symmetry; apply Nat.ltb_lt; lia). rewrite andb_false_r. reflexivity.
Qed.

Lemma unsubscribed p s t : matching fc c -> lreach p s -> subscribed c t = false -> busy (pget (y_ctl (l_b s)) t) = false.
Proof.
  intros Hm H Ht. destruct (lreach_inv _ _ _ _ _ _ Hm _ _ H) as [d V]. pose proof (c_t _ _ _ _ (v_f _ _ _ _ _ _ _ _ _ V)) as T. destruct (a_tau fc c Hm s d T) as (tau & M & A & He). pose proof (v_b _ _ _ _ _ _ _ _ _ V tau M A) as Hb.
  destruct (hreach_reach bp c tau _ _ Hb) as [acts E]. replace (pget (y_ctl (l_b s)) t) with CIdle; [reflexivity|]. symmetry. eapply stays_idle; [exact Ht| | |exact E]; destruct t; reflexivity.
Qed.

(* barometer data of a state is published after the odometry of the state before it *)
Lemma baro_index p s d tau : matching fc c -> linv bp al_s al_m fc c s2m p s d -> (forall n t, nth_error (announced (f_out (l_f s))) n = Some t -> tau (Z.of_nat n) = t) ->
  forall t, In t (map stamp (on TBaro (h_b p))) -> c_baro c = true -> exists i, t = tau (Z.of_nat i) /\ (i <= List.length (odoms (y_ev (l_b s))))%nat.
Proof.
  intros (_ & Mb & _) V A t Hm Hc. rewrite Hc in Mb. destruct (v_in _ _ _ _ _ _ _ _ _ V TBaro ltac:(discriminate)) as [X _]. cbn [posted] in X.
  assert (I1 : In t (map fst (out_baros (f_out (l_f s))))).
  { rewrite X in Hm. rewrite <- (firstn_skipn (pget (l_in s) TBaro) (map fst (out_baros (f_out (l_f s))))). apply in_or_app. left. exact Hm. }
  destruct (c_b _ _ _ _ (v_f _ _ _ _ _ _ _ _ _ V) Mb) as (_ & Bi & _). pose proof (FeBaro.bv_ts _ _ _ _ Bi) as Bt.
  assert (I2 : In t (map rt d)) by (rewrite Bt; apply in_or_app; left; exact I1). destruct (In_nth_error _ _ I2) as [i Ei]. exists i.
  pose proof (c_t _ _ _ _ (v_f _ _ _ _ _ _ _ _ _ V)) as T. pose proof (states_recs _ _ T) as Es.
  assert (Li : (i < List.length d)%nat) by (rewrite <- (map_length rt); apply nth_error_Some; congruence). split.
  - symmetry. apply A. change (announced (f_out (l_f s))) with (states (l_f s)). rewrite Es, map_app, nth_error_app1 by (rewrite map_length; exact Li). exact Ei.
  - destruct (v_paid _ _ _ _ _ _ _ _ _ V) as [_ P]; [unfold paid; lia|]. unfold paid in P. pose proof (v_odo _ _ _ _ _ _ _ _ _ V). lia.
Qed.

(* a thread of the back end that goes back to sleep with its mutex free *)
Definition asleep (s : loop) (t : tid) : Prop :=
  exists m l l', pget (y_ctl (l_b s)) t = CWant m l /\ prun bp (section c (y_ok (l_b s)) m l) (y_g (l_b s)) (y_log (l_b s)) (y_ev (l_b s)) = (y_g (l_b s), y_log (l_b s), y_ev (l_b s), ROut (OSleep l')).
(* IMU data and barometer do not wait at the same time *)
Theorem imu_or_baro p s : matching fc c -> lreach p s -> y_mutex (l_b s) = None -> asleep s TImu -> asleep s TBaro -> False.
Proof.
  intros Hm H Mu (m1 & l1 & l1' & C1 & E1) (m2 & l2 & l2' & C2 & E2).
  destruct (lreach_inv _ _ _ _ _ _ Hm _ _ H) as [d V]. pose proof (c_t _ _ _ _ (v_f _ _ _ _ _ _ _ _ _ V)) as T. destruct (a_tau fc c Hm s d T) as (tau & M & A & He). pose proof (v_b _ _ _ _ _ _ _ _ _ V tau M A) as Hb.
  destruct (hreach_healthy bp c tau _ _ He Hb) as (K & u & r & st & b & cb & fr & cal & B). rewrite settle_none in B by exact Mu.
  assert (P1 : pend (l_b s) TImu = m1 :: pget (y_q (l_b s)) TImu) by (unfold pend; rewrite C1; reflexivity). assert (P2 : pend (l_b s) TBaro = m2 :: pget (y_q (l_b s)) TBaro) by (unfold pend; rewrite C2; reflexivity).
  destruct (sleeps bp c tau _ _ _ _ _ _ _ _ _ _ TImu m1 l1 l1' He B P1 E1) as [[_ KU]|[[X _]|[X _]]]; try discriminate X.
  destruct (sleeps bp c tau _ _ _ _ _ _ _ _ _ _ TBaro m2 l2 l2' He B P2 E2) as [[X _]|[[X _]|[_ Hc]]]; try discriminate X.
  pose proof (bi_rest _ _ _ _ _ _ _ _ _ _ _ _ B) as R. pose proof (bi_env _ _ _ _ _ _ _ _ _ _ _ _ B) as E. pose proof (rs_phase _ _ _ _ _ _ _ _ _ _ _ _ _ R) as PH.
  destruct (en_msg _ _ _ _ _ _ _ _ _ _ E TBaro m2) as [Hm2 Ht2]; [rewrite P2; left; reflexivity|]. destruct m2 as [| | | |tt pr vp nz n]; try discriminate Ht2. cbn [msg_ok] in Hm2. destruct Hm2 as (-> & -> & Hn).
  destruct (en_bj _ _ _ _ _ _ _ _ _ _ E (MBaro tt pr true true n)) as (j & Hj & Ej); [rewrite P2; left; reflexivity|]. cbn [stamp] in Ej.
  assert (Hl : l2 = LFirst /\ cb = b \/ exists inner, l2 = LNext cb inner).
  { pose proof (bi_loc _ _ _ _ _ _ _ _ _ _ _ _ B) as X. rewrite C2 in X. cbn [loc_ok] in X. destruct l2 as [|x inner]; [left; auto|right; exists inner; congruence]. }
  rewrite (bi_ok _ _ _ _ _ _ _ _ _ _ _ _ B) in E2. cbn [section] in E2.
  pose proof (S_baro bp c tau _ _ _ _ _ _ _ _ _ _ _ l2 tt pr n j Hc M R Ej Hj Hn Hl) as W. unfold wp in W. rewrite E2 in W.
  destruct W as [(Hb1 & _)|[(_ & _ & X & _)|(_ & _ & X & _)]]; try discriminate X.
  destruct (en_baro _ _ _ _ _ _ _ _ _ _ E) as [_ [don Ed]]. rewrite P2 in Ed.
  destruct (baro_index p s d tau Hm V A tt) as (i & Ei & Li); [rewrite Ed; apply in_or_app; right; left; reflexivity|exact Hc|].
  assert (LK : List.length (odoms (y_ev (l_b s))) = Z.to_nat (K + 1)).
  { rewrite (ev_odoms _ _ _ _ (rs_ev _ _ _ _ _ _ _ _ _ _ _ _ _ R)), map_length. unfold zrange. rewrite map_length, seq_length. lia. }
  assert (KB : -1 <= K /\ 0 <= u /\ 0 <= b /\ (0 <= K -> K <= u)). { destruct PH as [PH|PH]; [lia|]. destruct (c_reg c), (c_stereo c); rewrite Hc in PH; lia. }
  assert (IJ : Z.of_nat i = j) by (apply (tau_inj tau); [exact M|lia|lia|congruence]).
  unfold nn in Hb1. destruct (Z.ltb_spec K 0) as [KN|KP].
  - destruct (env_imu_done _ _ _ _ _ _ _ _ _ _ _ _ E P1 ltac:(lia)) as (_ & _ & HK & _). lia.
  - lia.
Qed.
(* at rest a thread is free, so that nothing is left undone for want of one *)
Theorem rest_frees p s : matching fc c -> preach p s -> (sleepers c < c_pool c)%nat -> pool_rest s -> (pool_busy s < c_pool c)%nat.
Proof.
  intros Hm H Hn Q. apply pool_reach in H. pose proof (z_mutex _ _ _ _ _ _ _ Q) as Mu.
  destruct (lreach_inv _ _ _ _ _ _ Hm _ _ H) as [d V]. pose proof (c_t _ _ _ _ (v_f _ _ _ _ _ _ _ _ _ V)) as T. destruct (a_tau fc c Hm s d T) as (tau & M & A & He). pose proof (v_b _ _ _ _ _ _ _ _ _ V tau M A) as Hb.
  destruct (hreach_healthy bp c tau _ _ He Hb) as (K & u & r & st & b & cb & fr & cal & B). rewrite settle_none in B by exact Mu.
  assert (Bz : forall t, busy (pget (y_ctl (l_b s)) t) = true -> asleep s t /\ t <> TInit /\ t <> TReg).
  { intros t Ht. pose proof (bi_ctl _ _ _ _ _ _ _ _ _ _ _ _ B t) as X. destruct (pget (y_ctl (l_b s)) t) as [|m l|m l| |] eqn:Ec; try discriminate Ht; try contradiction.
    - destruct (z_wait _ _ _ _ _ _ _ Q t m l Ec) as [l' EP]. split; [exists m, l, l'; auto|]. destruct (sleeps bp c tau _ _ _ _ _ _ _ _ _ _ t m l l' He B) as [[-> _]|[[-> _]|[-> _]]]; try exact EP; try (unfold pend; rewrite Ec; reflexivity); split; discriminate.
    - pose proof (reachable_excl _ _ _ (hreach_reach bp c tau _ _ Hb)) as Y. pose proof (ex_owner _ _ Y t) as O. rewrite Ec in O. specialize (O I). rewrite Mu in O. discriminate. }
  unfold pool_busy, s2s_held. rewrite workers_sum, (z_s _ _ _ _ _ _ _ Q). cbn [held].
  pose proof (held_le (fe_held (l_f s))). pose proof (held_le (s2m_held (l_r s))).
  assert (X1 : (b2n (busy (p_s (y_ctl (l_b s)))) <= held (c_stereo c))%nat).
  { destruct (c_stereo c) eqn:Es; [destruct (busy (p_s _)); cbn; lia|]. pose proof (unsubscribed p s TStereo Hm H Es) as X. cbn [pget] in X. rewrite X. cbn. lia. }
  assert (X2 : (b2n (busy (p_u (y_ctl (l_b s)))) + b2n (busy (p_b (y_ctl (l_b s)))) <= 1)%nat).
  { destruct (busy (p_u (y_ctl (l_b s)))) eqn:E1, (busy (p_b (y_ctl (l_b s)))) eqn:E2; cbn [b2n]; try lia. exfalso. destruct (Bz TImu E1) as [S1 _]. destruct (Bz TBaro E2) as [S2 _]. eapply imu_or_baro; eauto. }
  assert (X3 : busy (p_i (y_ctl (l_b s))) = false) by (destruct (busy (p_i (y_ctl (l_b s)))) eqn:E1; [destruct (Bz TInit E1) as (_ & X & _); congruence|reflexivity]).
  assert (X4 : busy (p_r (y_ctl (l_b s))) = false) by (destruct (busy (p_r (y_ctl (l_b s)))) eqn:E1; [destruct (Bz TReg E1) as (_ & _ & X); congruence|reflexivity]).
  rewrite X3, X4. cbn [b2n]. unfold sleepers in Hn. lia.
Qed.
Theorem rest_is_rest p s : matching fc c -> preach p s -> (sleepers c < c_pool c)%nat -> pool_rest s -> at_rest bp fc c s2m s.
Proof.
  intros Hm H Hn Q. pose proof (rest_frees p s Hm H Hn Q) as Fr. apply pool_reach in H. destruct (lreach_inv _ _ _ _ _ _ Hm _ _ H) as [d V].
  assert (Z0 : forall a, starts a = true -> match a with LSensor _ | LSend _ => False | _ => True end -> lstep s a = None).
  { intros a Ha Hs. pose proof (z_start _ _ _ _ _ _ _ Q a Ha Hs) as X. unfold PlModel.pstep in X. apply Nat.ltb_lt in Fr. rewrite Fr, andb_false_r in X. exact X. }
  constructor.
  - apply (z_poll _ _ _ _ _ _ _ Q).
  - specialize (Z0 LOdom eq_refl I). cbn [LpModel.lstep] in Z0. pose proof (v_odo _ _ _ _ _ _ _ _ _ V) as O. destruct (nth_error (odoms (y_ev (l_b s))) (l_odo s)) as [[k t]|] eqn:E; [discriminate|]. apply nth_error_None in E. lia.
  - apply (z_send _ _ _ _ _ _ _ Q).
  - intros t E I1. specialize (Z0 (LScan 0) eq_refl I). cbn [LpModel.lstep] in Z0. rewrite E in Z0. replace (existsb (Z.eqb t) (trans (y_ev (l_b s)))) with true in Z0; [|symmetry; apply existsb_exists; exists t; split; [exact I1|apply Z.eqb_refl]].
    unfold with_r in Z0. pose proof (z_s _ _ _ _ _ _ _ Q) as Es. destruct (l_r s) as [ok own qc qt pv sp mp pb]. cbn [r_s] in Es. subst sp. discriminate.
  - apply (z_s _ _ _ _ _ _ _ Q).
  - intros E2. destruct (z_m _ _ _ _ _ _ _ Q E2) as [O X]. split; [exact O|]. destruct X as [X|X]; [left|right; exact X]. split; [exact X|].
    specialize (Z0 LMap eq_refl I). cbn [LpModel.lstep] in Z0. destruct (nth_error (cloud_stamps (l_f s)) (l_map s)) as [t|] eqn:E; [|left; apply nth_error_None; exact E]. destruct (nth_error (odoms (y_ev (l_b s))) (l_map s)) eqn:E'; [|right; apply nth_error_None; exact E'].
    unfold with_r in Z0. destruct (l_r s) as [ok own qc qt pv sp mp pb]. cbn [r_m] in X. subst mp. discriminate.
  - split; [apply (z_mutex _ _ _ _ _ _ _ Q)|]. split; [|apply (z_wait _ _ _ _ _ _ _ Q)].
    intros t. specialize (Z0 (LBack (ADispatch t)) eq_refl I). cbn [LpModel.lstep internalb] in Z0. destruct (sys_step bp c (l_b s) (ADispatch t)); [discriminate|reflexivity].
Qed.
Lemma sleepers_workers : (sleepers c < c_pool c)%nat -> enough_workers c.
Proof. unfold sleepers, enough_workers, held. destruct (c_reg c), (c_stereo c), (c_baro c); lia. Qed.
(* what the pipeline delivers at rest, it delivers on that many threads *)
Theorem pool_delivers p s : matching fc c -> c_reg c = true -> (sleepers c < c_pool c)%nat -> preach p s -> features_in c p s -> pool_rest s -> out_inits (f_out (l_f s)) <> [] ->
  List.length (odoms (y_ev (l_b s))) = Nat.max 1 (List.length (out_clouds (f_out (l_f s)))) /\
  (forall u sw new, f_pc (l_f s) = PBias u sw new -> f_bias (l_f s) = f_pst (l_f s)).
Proof.
  intros Hm Hr Hn H Hf Q Hi. apply (rest_done bp al_s al_m fc c s2m p s Hm Hr (sleepers_workers Hn) (pool_reach p s H) Hf (rest_is_rest p s Hm H Hn Q) Hi).
Qed.
End Pool.
