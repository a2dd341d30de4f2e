(* Concrete executions of the front end. *)
From Verif Require Import Base ImuModel ImuSpec ImuProofs FeModel FeSpec FeBaro FeProofs FeImu FeLive.

(* the contract, decided *)
Definition calmb (c : fcfg) (ins : list fin) (s : fe) (i : fin) : bool :=
  match i with
  | IImu t _ => forallb (fun m => fst m <? t) (in_imu ins)
  | IBaro t _ => forallb (fun m => fst m <? t) (in_baro ins)
  | ICloud u sw => forallb (fun m => fst m <? u) (in_clouds ins) && (0 <? sw)
  | IStereo _ => true
  | IOdom t => existsb (Z.eqb t) (announced (f_out s)) && forallb (fun x => from_pcl (fst x) <=? t) (out_clouds (f_out s)) && existsb (fun m => t <=? fst m) (in_imu ins)
  | IPoll =>
      match f_pc s, f_prev s with
      | PChosen u sw new, Some (pu, psw) =>
          existsb (fun m => fst m <? from_pcl pu) (in_imu ins) &&
          (negb (f_init s) || (existsb (fun m => (f_pst s <? fst m) && (fst m <? new)) (in_imu ins) && existsb (fun m => new <=? fst m) (in_imu ins)))
      | PSkew u sw new, Some (pu, psw) => forallb (fun m => negb (fst m =? from_pcl pu) && negb (fst m =? from_pcl pu + psw)) (in_imu ins)
      | PBaro u sw new, Some _ => negb (fc_baro c) || match in_baro ins with [] => false | _ => true end
      | _, _ => true
      end
  end.
Lemma ex_of {A} (f : A -> bool) l : existsb f l = true -> exists x, In x l /\ f x = true. Proof. apply existsb_exists. Qed.
Lemma calmb_ok c ins s i : calmb c ins s i = true -> calm c ins s i.
Proof.
  destruct i as [t v|t|t p|t|u sw|]; cbn [calmb calm]; auto.
  - rewrite forallb_forall. intros H m Hm. specialize (H m Hm). lia.
  - rewrite forallb_forall. intros H m Hm. specialize (H m Hm). lia.
  - rewrite !andb_true_iff, forallb_forall. intros [[H1 H2] H3]. apply ex_of in H1. apply ex_of in H3. destruct H1 as (x & Hx & E), H3 as (m & Hm & E3). conj.
    + replace t with x by lia. exact Hx.
    + intros y Hy. specialize (H2 y Hy). lia.
    + exists m. split; [exact Hm|lia].
  - rewrite andb_true_iff, forallb_forall. intros [H1 H2]. split; [|lia]. intros m Hm. specialize (H1 m Hm). lia.
  - destruct (f_pc s), (f_prev s) as [[pu psw]|]; auto.
    + rewrite andb_true_iff, orb_true_iff. intros [H1 H2]. split; [apply ex_of in H1; destruct H1 as (m & Hm & E); exists m; split; [exact Hm|lia]|].
      intros Hi. destruct H2 as [H2|H2]; [rewrite Hi in H2; discriminate|]. apply andb_true_iff in H2. destruct H2 as [H2 H3]. apply ex_of in H2. apply ex_of in H3. destruct H2 as (m & Hm & E), H3 as (m' & Hm' & E').
      split; [exists m; split; [exact Hm|lia]|exists m'; split; [exact Hm'|lia]].
    + rewrite forallb_forall. intros H m Hm. specialize (H m Hm). lia.
    + intros H Hb. rewrite Hb in H. destruct (in_baro ins); [discriminate|]. discriminate.
Qed.
Fixpoint calm_runb (c : fcfg) (ins : list fin) (s : fe) (l : list fin) : bool :=
  match l with [] => true | i :: l' => calmb c ins s i && match fe_step c s i with Ok s' => calm_runb c (ins ++ [i]) s' l' | _ => true end end.
Lemma calm_runb_ok c : forall l ins s, calm_runb c ins s l = true -> calm_run c ins s l.
Proof.
  induction l as [|i l IH]; intros ins s H; [exact I|]. cbn in *. apply andb_true_iff in H. destruct H as [H1 H2]. split; [apply calmb_ok; exact H1|]. destruct (fe_step c s i); auto.
Qed.

(* stereo and barometer: three clouds, states at a cloud stamp and at a stereo stamp *)
Definition cfg_full := mkFcfg true false true.
Definition run_full : list fin :=
  [IImu 90000 1; IBaro 95000 7; ICloud 100 50000; IImu 125000 2; IStereo 130456; ICloud 200 50000; IPoll; IImu 155000 3; IPoll; IPoll; IOdom 130000; IPoll; IPoll; IPoll;
   IImu 185000 4; IBaro 190000 8; IStereo 350000; IImu 235000 5; ICloud 300 50000; IPoll; IPoll; IImu 265000 6; IPoll; IPoll; IPoll; IOdom 200000; IBaro 290000 9].
Example full_calm : calm_run cfg_full [] fe_init run_full.
Proof. apply calm_runb_ok. vm_compute. reflexivity. Qed.
Example full_out : exists s, fe_run cfg_full fe_init run_full = Ok s /\
  out_inits (f_out s) = [130000] /\ out_spans (f_out s) = [(130000, 200000)] /\ out_clouds (f_out s) = [(130, (100, 50000)); (200, (200, 50000))] /\
  out_baros (f_out s) = [(130000, Between (95000, 7) (190000, 8)); (200000, Between (190000, 8) (290000, 9))].
Proof. eexists. split; [vm_compute; reflexivity|]. vm_compute. auto. Qed.

(* lidar only, no barometer *)
Definition cfg_lidar := mkFcfg false false false.
Definition prefix_lidar : list fin :=
  [IImu 90000 1; ICloud 100 50000; IImu 125000 2; ICloud 200 50000; IImu 155000 3; IPoll; IOdom 100000; IPoll; IPoll; IPoll; IImu 190000 4; IImu 235000 5; ICloud 300 50000; IPoll].
(* without scan registration the back end answers the IMU array at once: its odometry of the new state
   arrives before the callback has looked at that of the previous one *)
Example lost_wakeup_run : exists s, fe_run cfg_lidar fe_init (prefix_lidar ++ [IOdom 200000]) = Ok s /\ calm_run cfg_lidar [] fe_init (prefix_lidar ++ [IOdom 200000]) /\
  out_spans (f_out s) = [(100000, 200000)] /\ f_pc s = PBias 300 50000 200000 /\ f_pst s < f_bias s.
Proof. eexists. split; [vm_compute; reflexivity|]. split; [apply calm_runb_ok; vm_compute; reflexivity|]. vm_compute. auto. Qed.
(* the same with the odometry only after the cloud goes on *)
Example closed_loop_run : exists s, fe_run cfg_lidar fe_init (prefix_lidar ++ [IImu 265000 6; IPoll; IPoll; IPoll; IOdom 200000]) = Ok s /\ out_clouds (f_out s) = [(100, (100, 50000)); (200, (200, 50000))].
Proof. eexists. split; [vm_compute; reflexivity|]. vm_compute. reflexivity. Qed.

(* the pieces of the contract are needed *)
(* no measurement after the previous state when the next state is chosen *)
Example late_imu_ub : fe_run (mkFcfg true false false) fe_init
  [IImu 90000 1; ICloud 100 5000; IImu 106000 2; IStereo 101000; ICloud 200 5000; IPoll; IPoll; IOdom 101000; IPoll; IPoll; IPoll;
   IImu 207000 3; IStereo 250000; ICloud 300 5000; IPoll; IPoll; IPoll; IPoll; IPoll;
   IStereo 350000; ICloud 400 5000; IPoll; IPoll] = UB.
Proof. vm_compute. reflexivity. Qed.
(* a measurement stamped exactly at the end of the sweep *)
Example zero_step_throws : fe_run cfg_lidar fe_init [IImu 90000 1; ICloud 100 50000; IImu 125000 2; ICloud 200 50000; IImu 150000 3; IPoll; IOdom 100000; IPoll; IPoll] = Throw.
Proof. vm_compute. reflexivity. Qed.
(* state before any barometer message *)
Example baro_ub : fe_run (mkFcfg false false true) fe_init [IImu 90000 1; ICloud 100 50000; IImu 125000 2; ICloud 200 50000; IImu 155000 3; IPoll; IOdom 100000; IPoll; IPoll; IPoll] = UB.
Proof. vm_compute. reflexivity. Qed.
(* nothing between two states: the array has one measurement and the back end's integration throws *)
Example sparse_imu : exists s l, fe_run cfg_lidar fe_init [IImu 90000 1; ICloud 100 5000; IImu 107000 2; ICloud 103 5000; IPoll; IOdom 100000; IPoll; IPoll; IPoll; ICloud 110 5000; IPoll] = Ok s /\
  In (OArray 100000 103000 l) (f_out s) /\ integrate_imu l 100000 103000 = Throw.
Proof. eexists. exists [(90000, 1)]. split; [vm_compute; reflexivity|]. split; vm_compute; auto. Qed.

(* IMU buffers *)
Example imu_case : integrate_imu [(0, 10); (4, 20); (9, 30); (15, 40)] 2 12 = Ok [(10, 2); (20, 5); (30, 3)]. Proof. reflexivity. Qed.
Example imu_zero : integrate_imu [(0, 10); (4, 20); (12, 30)] 2 12 = Throw. Proof. reflexivity. Qed.
Example imu_delete : delete_old 5 [(0, 10); (4, 20); (9, 30)] = [(9, 30)]. Proof. reflexivity. Qed.
Example imu_select : select_imu 2 12 [(0, 10); (1, 15); (4, 20); (9, 30); (15, 40)] = Ok [(1, 15); (4, 20); (9, 30)]. Proof. reflexivity. Qed.

(* ---- statements for the property file ---- *)
Fixpoint strictb (b : list (Z * Z)) : bool := match b with [] => true | x :: b' => forallb (fun y => fst x <? fst y) b' && strictb b' end.
Lemma strictb_ok b : strictb b = true -> strict b.
Proof.
  induction b as [|x b IH]; cbn; [auto|]. rewrite andb_true_iff, forallb_forall. intros [H1 H2]. split; [|auto]. intros y Hy. specialize (H1 y Hy). lia.
Qed.
Lemma zero_step_refuted : exists b start stop, strict b /\ start < stop /\ (2 <= List.length b)%nat /\ (exists x, In x b /\ fst x <= start) /\ integrate_imu b start stop = Throw.
Proof. exists [(0, 10); (4, 20); (12, 30)], 2, 12. conj; [apply strictb_ok; reflexivity|lia|cbn; lia|exists (0, 10); cbn; split; [auto|lia]|reflexivity]. Qed.
Lemma neighbours_spec t b : ordered b -> imu_neighbours t b <> UB /\
  (imu_neighbours t b = Throw <-> ~ ((2 <= List.length b)%nat /\ (exists x, In x b /\ fst x <= t) /\ (exists x, In x b /\ t <= fst x))) /\
  (forall q r, imu_neighbours t b = Ok (q, r) -> (exists b1 b2, b = b1 ++ q :: r :: b2) /\ fst q <= t <= fst r).
Proof. intros H. destruct (neighbours_throw t b H) as [A B]. conj; auto. intros q r E. apply neighbours_ok. exact E. Qed.
Lemma empty_buffer_refuted : (forall t, bar_run (mkBar [] []) [BS t] = UB) /\ exists l, strict (in_clouds l) /\ strict (in_imu l) /\ fe_run (mkFcfg false false true) fe_init l = UB.
Proof.
  split; [exact baro_empty_ub|]. eexists. split; [|split; [|exact baro_ub]]; apply strictb_ok; reflexivity.
Qed.
Lemma open_loop_refuted : exists l s u sw new, calm_run cfg_lidar [] fe_init l /\ fe_run cfg_lidar fe_init l = Ok s /\ f_pc s = PBias u sw new /\ f_pst s < f_bias s /\
  forall l' s', (forall t, In (IOdom t) l' -> f_pst s < t) -> fe_run cfg_lidar s l' = Ok s' -> out_clouds (f_out s') = out_clouds (f_out s).
Proof.
  destruct lost_wakeup_run as (s & E & C & _ & Ep & Hb). exists (prefix_lidar ++ [IOdom 200000]), s, 300, 50000, 200000. conj; auto. intros l' s' Hl E'. eapply lost_wakeup; eauto.
Qed.
Lemma cloud_finishes_run c ins s u sw new pu psw : calm_run c [] fe_init ins -> fe_run c fe_init ins = Ok s -> f_pc s = PBias u sw new -> f_prev s = Some (pu, psw) -> f_bias s = f_pst s ->
  from_pcl pu + psw <= f_last s -> (forall m, In m (in_imu ins) -> fst m <> from_pcl pu /\ fst m <> from_pcl pu + psw) -> (fc_baro c = true -> in_baro ins <> []) ->
  exists s', fe_run c s [IPoll; IPoll; IPoll] = Ok s' /\ f_pc s' = PIdle /\ f_pst s' = new /\ out_clouds (f_out s') = out_clouds (f_out s) ++ [(to_pcl new, (pu, psw))].
Proof.
  intros C E. destruct (run_calm c ins [] fe_init [] (cinv_init c) C) as (s0 & done & E0 & V). rewrite E in E0. injection E0 as <-. intros. eapply cloud_finishes; eauto.
Qed.
Example finishes_case : exists s, calm_run cfg_lidar [] fe_init (prefix_lidar ++ [IImu 265000 6]) /\ fe_run cfg_lidar fe_init (prefix_lidar ++ [IImu 265000 6]) = Ok s /\
  f_pc s = PBias 300 50000 200000 /\ f_prev s = Some (200, 50000) /\ f_bias s = f_pst s /\ from_pcl 200 + 50000 <= f_last s.
Proof. eexists. split; [apply calm_runb_ok; vm_compute; reflexivity|]. split; [vm_compute; reflexivity|]. vm_compute. conj; congruence. Qed.
Lemma contract_needed :
  (exists l, strict (in_imu l) /\ strict (in_clouds l) /\ fe_run (mkFcfg true false false) fe_init l = UB) /\
  (exists l, strict (in_imu l) /\ strict (in_clouds l) /\ fe_run cfg_lidar fe_init l = Throw) /\
  (exists l s a b d, strict (in_imu l) /\ strict (in_clouds l) /\ fe_run cfg_lidar fe_init l = Ok s /\ In (OArray a b d) (f_out s) /\ integrate_imu d a b = Throw).
Proof.
  conj.
  - eexists. split; [|split; [|exact late_imu_ub]]; apply strictb_ok; reflexivity.
  - eexists. split; [|split; [|exact zero_step_throws]]; apply strictb_ok; reflexivity.
  - destruct sparse_imu as (s & l & E & H1 & H2). eexists _, s, 100000, 103000, l. split; [|split; [|split; [exact E|auto]]]; apply strictb_ok; reflexivity.
Qed.
