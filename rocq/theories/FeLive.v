(* Waiting of the point cloud callback for the optimised odometry (FE 452-459). *)
From Verif Require Import Base ImuModel ImuSpec ImuProofs FeModel FeSpec FeBaro FeProofs FeImu.

(* the parts of the state the wait depends on *)
Lemma wait_frame c s i s' u sw new : f_pc s = PBias u sw new -> fe_step c s i = Ok s' -> i <> IPoll ->
  f_pc s' = PBias u sw new /\ f_prev s' = f_prev s /\ f_pst s' = f_pst s /\ out_clouds (f_out s') = out_clouds (f_out s) /\ f_bias s' = (match i with IOdom t => t | _ => f_bias s end).
Proof.
  intros Ep E N. destruct i as [t v|t|t p|t|cu csw|]; cbn [fe_step] in E; try congruence.
  - unfold imu_callback in E. destruct (f_pre s); [|injection E as <-; auto]. destruct (preintegrate _); try discriminate. cbn [rbind] in E. injection E as <-. cbn [out f_out f_pc f_prev f_pst f_bias].
    unfold out_clouds. rewrite flat_map_app. cbn. rewrite app_nil_r. auto 10.
  - destruct (fc_stereo c); injection E as <-; auto 10. unfold stereo_callback. destruct (fc_graph_only c); cbn [out f_out f_pc f_prev f_pst f_bias]; auto 10. unfold out_clouds. rewrite flat_map_app. cbn. rewrite app_nil_r. auto 10.
  - destruct (fc_baro c); [|injection E as <-; auto 10]. destruct (bar_measure _ _) as [r| |]; try discriminate. cbn [rbind] in E. injection E as <-. destruct (no_baro (snd r)) as (_ & _ & N3).
    unfold set_bar. cbn [out f_out f_pc f_prev f_pst f_bias]. unfold out_clouds in *. rewrite flat_map_app, N3, app_nil_r. auto 10.
  - unfold odometry_callback in E. destruct (imu_neighbours _ _); try discriminate. cbn [rbind] in E. destruct (catch_up t (f_imu s)). destruct (preintegrate _); try discriminate. cbn [rbind] in E. injection E as <-. auto 10.
  - rewrite Ep in E. injection E as <-. auto 10.
Qed.

(* once odometry newer than the awaited state has been handled, the callback never goes on, whatever else
   arrives, as long as odometry is not stamped back to the awaited state *)
Lemma lost_wakeup c : forall l s s' u sw new, f_pc s = PBias u sw new -> f_pst s < f_bias s -> (forall t, In (IOdom t) l -> f_pst s < t) -> fe_run c s l = Ok s' ->
  f_pc s' = PBias u sw new /\ out_clouds (f_out s') = out_clouds (f_out s) /\ f_pst s' = f_pst s.
Proof.
  induction l as [|i l IH]; intros s s' u sw new Ep Hb Hl E; [cbn in E; injection E as <-; auto|]. cbn [fe_run] in E.
  destruct (fe_step c s i) as [s1| |] eqn:E1; try discriminate. cbn [rbind] in E.
  assert (X : f_pc s1 = PBias u sw new /\ f_pst s1 = f_pst s /\ out_clouds (f_out s1) = out_clouds (f_out s) /\ f_pst s < f_bias s1).
  { assert (D : i = IPoll \/ i <> IPoll) by (destruct i; auto; right; discriminate). destruct D as [->|N].
    - cbn [fe_step] in E1. unfold cloud_poll in E1. rewrite Ep in E1. destruct (f_prev s) as [[pu psw]|] eqn:Ev; [|injection E1 as <-; auto]. replace (f_bias s =? f_pst s) with false in E1 by lia. cbn in E1. injection E1 as <-. auto.
    - destruct (wait_frame c s i s1 u sw new Ep E1 N) as (A1 & _ & A2 & A3 & A4). conj; auto. rewrite A4. destruct i; auto. apply Hl. left. reflexivity. }
  destruct X as (X1 & X2 & X3 & X4). destruct (IH s1 s' u sw new X1) as (Y1 & Y2 & Y3); [lia|intros t Ht; rewrite X2; apply Hl; right; exact Ht|exact E|]. conj; auto; congruence.
Qed.

(* in a closed loop, odometry is for the awaited state: the wait stays satisfiable, and is over when the IMU
   data reach the end of the sweep *)
Lemma wait_kept c : forall l s s' u sw new, f_pc s = PBias u sw new -> f_bias s = f_pst s -> (forall t, In (IOdom t) l -> t = f_pst s) -> ~ In IPoll l -> fe_run c s l = Ok s' ->
  f_pc s' = PBias u sw new /\ f_bias s' = f_pst s' /\ f_prev s' = f_prev s.
Proof.
  induction l as [|i l IH]; intros s s' u sw new Ep Hb Hl Np E; [cbn in E; injection E as <-; auto|]. cbn [fe_run] in E.
  destruct (fe_step c s i) as [s1| |] eqn:E1; try discriminate. cbn [rbind] in E.
  destruct (wait_frame c s i s1 u sw new Ep E1) as (A1 & A2 & A3 & _ & A4); [intros ->; apply Np; left; reflexivity|].
  destruct (IH s1 s' u sw new A1) as (Y1 & Y2 & Y3); [rewrite A4, A3; destruct i; auto; apply Hl; left; reflexivity|intros t Ht; rewrite A3; apply Hl; right; exact Ht|intros N; apply Np; right; exact N|exact E|].
  conj; auto. congruence.
Qed.

Lemma cloud_finishes c ins s done u sw new pu psw : cinv c ins s done -> f_pc s = PBias u sw new -> f_prev s = Some (pu, psw) -> f_bias s = f_pst s ->
  from_pcl pu + psw <= f_last s -> (forall m, In m (in_imu ins) -> fst m <> from_pcl pu /\ fst m <> from_pcl pu + psw) -> (fc_baro c = true -> in_baro ins <> []) ->
  exists s', fe_run c s [IPoll; IPoll; IPoll] = Ok s' /\ f_pc s' = PIdle /\ f_pst s' = new /\ out_clouds (f_out s') = out_clouds (f_out s) ++ [(to_pcl new, (pu, psw))].
Proof.
  intros V Ep Ev Hb Hl Hm Hbar.
  assert (S1 : fe_step c s IPoll = Ok (go s (PSkew u sw new))).
  { cbn [fe_step]. unfold cloud_poll. rewrite Ep, Ev. replace (f_bias s =? f_pst s) with true by lia. replace (f_last s <? from_pcl pu + psw) with false by lia. reflexivity. }
  destruct (step_calm c ins s done IPoll V) as (x & Ex & V1); [unfold calm; rewrite Ep; exact I|]. rewrite S1 in Ex. injection Ex as <-.
  assert (Ei : forall l, in_imu (l ++ [IPoll]) = in_imu l) by (intros; rewrite in_imu_snoc; apply app_nil_r). assert (Eb : forall l, in_baro (l ++ [IPoll]) = in_baro l) by (intros; rewrite in_baro_snoc; apply app_nil_r).
  destruct (step_calm c (ins ++ [IPoll]) (go s (PSkew u sw new)) _ IPoll V1) as (s2 & E2 & V2); [unfold calm; cbn [go f_pc f_prev]; rewrite Ev, Ei; exact Hm|].
  assert (X : exists l1 l2, s2 = go (out s [OCloud (to_pcl new) (pu, psw) l1 l2]) (PBaro u sw new)).
  { cbn [fe_step] in E2. unfold cloud_poll in E2. cbn [go f_pc f_prev] in E2. rewrite Ev in E2. destruct (if f_init _ then _ else _) as [l1| |]; try discriminate. cbn [rbind] in E2. destruct (integrate_imu _ _ _) as [l2| |]; try discriminate. cbn [rbind] in E2.
    apply Ok_inj in E2. exists l1, l2. rewrite E2. reflexivity. }
  destruct X as (l1 & l2 & E2').
  destruct (step_calm c ((ins ++ [IPoll]) ++ [IPoll]) s2 _ IPoll V2) as (s3 & E3 & V3); [rewrite E2'; unfold calm; cbn [go out f_pc f_prev]; rewrite Ev, !Eb; exact Hbar|].
  exists s3. cbn [fe_run]. rewrite S1. cbn [rbind]. rewrite E2. cbn [rbind]. rewrite E3. cbn [rbind]. split; [reflexivity|].
  rewrite E2' in E3. cbn [fe_step] in E3. unfold cloud_poll in E3. cbn [go out f_pc f_prev] in E3. rewrite Ev in E3.
  destruct (fc_baro c).
  - destruct (bar_state _ _) as [r| |]; try discriminate. cbn [rbind] in E3. injection E3 as <-. destruct (no_baro (snd r)) as (_ & _ & N3). unfold set_bar. cbn [go out f_pc f_pst f_out]. conj; auto. unfold out_clouds in *. rewrite !flat_map_app, N3, app_nil_r. reflexivity.
  - cbn [rbind] in E3. injection E3 as <-. cbn [go out f_pc f_pst f_out]. conj; auto. unfold out_clouds. rewrite flat_map_app. reflexivity.
Qed.
