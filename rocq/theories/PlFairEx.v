(* The fair execution of LpFairEx runs on four threads. *)
From Verif Require Import Base ImuModel ImuSpec FeModel FeSpec FeExamples.
From Verif Require Import RegModel RegSpec.
From Verif Require Import GmModel GmReady GmExamples BeModel BeSpec BeInv BeHealthy BeLive BeFair BeExamples LpModel LpSpec LpProofs LpInv LpLive LpExamples LpFairSpec LpFair LpFairEx PlModel PlSpec PlProofs PlFairSpec PlFair PlExamples.
Local Open Scope Z_scope.

Lemma start_pool : preach bp0 al0 al1 cfg_lidar cfg_reg true (xp 0) (xs 0).
Proof.
  assert (X : pplay cfg_lidar cfg_reg true (start cfg_reg) before = Some begin) by (vm_compute; reflexivity).
  change (preach bp0 al0 al1 cfg_lidar cfg_reg true (fst begin) (snd begin)). apply (pplay_reach cfg_lidar cfg_reg true before (start cfg_reg) begin); [constructor|exact X].
Qed.
Definition roomb (v : mv) (s : loop) : bool := negb (PlModel.starts (lab_mv v)) || Nat.ltb (pool_busy s) (c_pool cfg_reg).
Fixpoint rooms (y : past * loop) (l : list mv) : bool :=
  match l with [] => true | v :: l' => roomb v (snd y) && match one_ y (lab_mv v) with Some y' => rooms y' l' | None => false end end.
Lemma rooms_all : forall l n, (forall i v, nth_error l i = Some v -> mvs (n + i) = v) -> rooms (run n) l = true -> forall i, (i < List.length l)%nat -> roomb (mvs (n + i)) (xs (n + i)) = true.
Proof.
  induction l as [|v l IH]; intros n Hv W i L; [cbn in L; lia|]. cbn [rooms] in W. apply andb_prop in W. destruct W as [W1 W2].
  pose proof (Hv O v eq_refl) as E0. rewrite Nat.add_0_r in E0. destruct (one_ (run n) (lab_mv v)) as [y'|] eqn:Eo; [|discriminate]. assert (Er : run (S n) = y') by (cbn [run]; rewrite E0, Eo; reflexivity). rewrite <- Er in W2.
  destruct i as [|i]; [rewrite Nat.add_0_r, E0; exact W1|]. replace (n + S i)%nat with (S n + i)%nat by lia. apply IH; [|exact W2|cbn in L; lia]. intros j w Hw. replace (S n + j)%nat with (n + S j)%nat by lia. apply (Hv (S j)). exact Hw.
Qed.
Lemma rooms_begin : rooms begin after = true. Proof. vm_compute. reflexivity. Qed.
Lemma room n : roomb (mvs n) (xs n) = true.
Proof.
  destruct (Nat.lt_ge_cases n N0) as [L|L].
  - apply (rooms_all after 0 mvs_after); [rewrite run_0; exact rooms_begin|exact L].
  - destruct (split4 n L) as (k & r & Lr & ->). rewrite (mvs_late k r Lr). destruct r; reflexivity.
Qed.
Lemma pool_execution_ : pexecution bp0 al0 al1 cfg_lidar cfg_reg true xp xs xa.
Proof.
  constructor; [exact start_pool|]. intros n. pose proof (le_step _ _ _ _ _ _ _ _ _ execution_ n) as X. pose proof (room n) as Ro. unfold xa in *. destruct X as (F & E & P). split; [exact F|]. split; [|exact P].
  unfold PlModel.pstep, roomb in *. destruct (PlModel.starts (lab_mv (mvs n))); [|exact E]. cbn [negb orb] in Ro. rewrite Ro. exact E.
Qed.
Lemma pool_fair_ : pfair bp0 al0 al1 cfg_lidar cfg_reg true xp xs xa.
Proof.
  intros g n H. apply (fair_ g n). intros m L. destruct (H m L) as (m' & L' & [(a & s' & D & F & E)|X]); exists m'; (split; [exact L'|]); [left|right; exact X].
  exists a, s'. split; [exact D|]. split; [exact F|]. eapply pool_step. exact E.
Qed.
(* every assumption holds, with as many threads as the node takes by default; three are taken after the first move *)
Lemma fair_pool : matching cfg_lidar cfg_reg /\ c_reg cfg_reg = true /\ c_pool cfg_reg = 4%nat /\ (sleepers cfg_reg < c_pool cfg_reg)%nat /\ pexecution bp0 al0 al1 cfg_lidar cfg_reg true xp xs xa /\ pfair bp0 al0 al1 cfg_lidar cfg_reg true xp xs xa /\ timeline xs time_ /\
  features_follow cfg_reg xp xs /\ polled xa /\ imu_follows xp /\ images_follow cfg_lidar xp /\ cloud_stamps (l_f (xs 0)) = [100000; 200000] /\ r_pub Z Z (l_r (xs 0)) = [] /\ pool_busy (xs 1) = 3%nat.
Proof.
  split; [exact reg_matching|]. split; [reflexivity|]. split; [reflexivity|]. split; [unfold sleepers; cbn; lia|]. split; [exact pool_execution_|]. split; [exact pool_fair_|]. split; [exact timeline_|]. split; [intros Hs; discriminate|]. split; [exact polled_|]. split; [exact imu_follows_|]. split; [intros Hs; discriminate|].
  split; [vm_compute; reflexivity|]. split; [vm_compute; reflexivity|]. vm_compute. reflexivity.
Qed.
