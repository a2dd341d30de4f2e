(* A fair infinite execution of the pipeline: the second cloud is registered, optimised and its odometry comes back, then registration against the map polls for ever. *)
From Verif Require Import Base ImuModel ImuSpec FeModel FeSpec FeExamples.
From Verif Require Import RegModel RegSpec.
From Verif Require Import GmModel GmReady GmExamples BeModel BeSpec BeInv BeHealthy BeLive BeFair BeExamples LpModel LpSpec LpProofs LpInv LpLive LpExamples LpFairSpec LpFair.
Local Open Scope Z_scope.

Notation one_ := (one al0 al1 cfg_lidar cfg_reg true).
Inductive mv := A (i : ins) | K (a : act).
Definition lab_mv (v : mv) : lact := match v with A i => lab_of i | K a => LBack a end.
Definition before : list ins :=
  [Sen (IImu 90000 1); Sen (ICloud 100 50000); Sen (IImu 125000 2); Sen (ICloud 200 50000); Sen (IImu 155000 3); Pol;
   Snd TInit 100000; Job TInit; Odo; Pol; Pol; Scn 1; RS; RS; Mp; RM; RM; Pol;
   Sen (IImu 190000 4); Sen (IImu 235000 5); Sen (ICloud 300 50000); Pol; Snd TImu 200000; Job TImu; RM; RM; RM; Sen (IImu 265000 6); Pol; Pol].
Definition after : list mv :=
  map A [Scn 2; RS; RS; RS; RS; RS; RS; RM; RM; RM; RM; RM; RM; RM; RM; Pol; Snd TReg 200000] ++ [K (ADispatch TReg); K (ALock TReg)] ++ repeat (K (AStep TReg)) 21 ++ map A [Odo; Mp; RM; RM; Sen (IImu 355000 7)].
Definition begin : past * loop := match play al0 al1 cfg_lidar cfg_reg true (start cfg_reg) before with Some y => y | None => start cfg_reg end.

Definition N0 : nat := List.length after.
Definition mvs (n : nat) : mv := match nth_error after n with Some v => v | None => match Nat.modulo (n - N0) 4 with O => A Pol | _ => A RM end end.
Fixpoint run (n : nat) : past * loop := match n with O => begin | S n' => match one_ (run n') (lab_mv (mvs n')) with Some y => y | None => run n' end end.
Definition xp (n : nat) : past := fst (run n).
Definition xs (n : nat) : loop := snd (run n).
Definition xa (n : nat) : option lact := Some (lab_mv (mvs n)).

Definition mvb (y : past * loop) (v : mv) : bool :=
  match v with A i => fineb cfg_lidar (fst y) (snd y) i | K _ => true end && match one_ y (lab_mv v) with Some _ => true | None => false end.
Fixpoint walk (y : past * loop) (l : list mv) : option (past * loop) :=
  match l with [] => Some y | v :: l' => if mvb y v then match one_ y (lab_mv v) with Some y' => walk y' l' | None => None end else None end.
Lemma mvb_ok y v : mvb y v = true -> fine cfg_lidar (fst y) (snd y) (lab_mv v) /\ exists y', one_ y (lab_mv v) = Some y'.
Proof.
  intros H. apply andb_prop in H. destruct H as [H1 H2]. split; [destruct v as [i|a]; [apply fineb_ok; exact H1|exact I]|]. destruct (one_ y (lab_mv v)); [eauto|discriminate].
Qed.
Lemma walks : forall l n, (forall i v, nth_error l i = Some v -> mvs (n + i) = v) -> walk (run n) l <> None -> (forall i, (i < List.length l)%nat -> mvb (run (n + i)) (mvs (n + i)) = true) /\ walk (run n) l = Some (run (n + List.length l)).
Proof.
  induction l as [|v l IH]; intros n Hv W; [split; [intros i L; cbn in L; lia|cbn; rewrite Nat.add_0_r; reflexivity]|]. cbn [walk] in *.
  pose proof (Hv O v eq_refl) as E0. rewrite Nat.add_0_r in E0. destruct (mvb (run n) v) eqn:Eb; [|congruence]. destruct (one_ (run n) (lab_mv v)) as [y'|] eqn:Eo; [|congruence].
  assert (Er : run (S n) = y') by (cbn [run]; rewrite E0, Eo; reflexivity). rewrite <- Er in *. destruct (IH (S n)) as [I1 I2]; [|exact W|].
  - intros i w Hw. replace (S n + i)%nat with (n + S i)%nat by lia. apply (Hv (S i)). exact Hw.
  - split; [|rewrite I2; f_equal; f_equal; cbn; lia]. intros [|i] L; [rewrite Nat.add_0_r, E0; exact Eb|]. replace (n + S i)%nat with (S n + i)%nat by lia. apply I1. cbn in L. lia.
Qed.
Definition s0 : loop := match walk begin after with Some y => snd y | None => snd begin end.
Definition mstate (m : mpc Z Z) : loop := let 'Rst _ _ ok own qc qt pv s _ pb := l_r s0 in mkLoop (l_f s0) (Rst Z Z ok (match m with MTest _ _ _ => Some ThM | _ => own end) qc qt pv s m pb) (l_b s0) (l_in s0) (l_odo s0) (l_scn s0) (l_map s0).
Definition s1 : loop := mstate (MWant Z Z 200000).
Definition s2 : loop := mstate (MTest Z Z 200000).
Lemma walked : walk begin after <> None. Proof. vm_compute. discriminate. Qed.
Lemma mvs_after i v : nth_error after i = Some v -> mvs (0 + i) = v. Proof. intros E. unfold mvs. cbn [Nat.add]. rewrite E. reflexivity. Qed.
Lemma run_0 : run 0 = begin. Proof. reflexivity. Qed.
Lemma walked_0 : walk (run 0) after <> None. Proof. rewrite run_0. exact walked. Qed.
Lemma at_N : xs N0 = s0.
Proof. unfold xs, s0. pose proof (proj2 (walks after 0 mvs_after walked_0)) as E. rewrite run_0, Nat.add_0_l in E. fold N0 in E. rewrite E. reflexivity. Qed.
Lemma s0_poll : lstep bp0 al0 al1 cfg_lidar cfg_reg true s0 LPoll = Some (Ok s0). Proof. vm_compute. reflexivity. Qed.
Lemma s0_idle : f_pc (l_f s0) = PIdle. Proof. vm_compute. reflexivity. Qed.
Lemma s0_run : lstep bp0 al0 al1 cfg_lidar cfg_reg true s0 (LReg (RunM Z Z)) = Some (Ok s1). Proof. vm_compute. reflexivity. Qed.
Lemma s1_run : lstep bp0 al0 al1 cfg_lidar cfg_reg true s1 (LReg (RunM Z Z)) = Some (Ok s2). Proof. vm_compute. reflexivity. Qed.
Lemma s2_run : lstep bp0 al0 al1 cfg_lidar cfg_reg true s2 (LReg (RunM Z Z)) = Some (Ok s0). Proof. vm_compute. reflexivity. Qed.
Definition turn (r : nat) : loop := match r with 2%nat => s1 | 3%nat => s2 | _ => s0 end.
Lemma mvs_late k r : (r < 4)%nat -> mvs (N0 + (4 * k + r)) = match r with O => A Pol | _ => A RM end.
Proof.
  intros Lr. unfold mvs. assert (nth_error after (N0 + (4 * k + r)) = None) as -> by (apply nth_error_None; unfold N0; lia). replace (N0 + (4 * k + r) - N0)%nat with (r + k * 4)%nat by lia. rewrite Nat.mod_add, Nat.mod_small by lia. reflexivity.
Qed.
Lemma run_step n s' : lstep bp0 al0 al1 cfg_lidar cfg_reg true (xs n) (lab_mv (mvs n)) = Some (Ok s') -> xs (S n) = s' /\ xp (S n) = note (xs n) (lab_mv (mvs n)) (xp n).
Proof. intros E. unfold xs, xp in *. cbn [run]. unfold one. rewrite E. auto. Qed.
Lemma cycle4 {X} (f : nat -> X) (g : nat -> X) (N : nat) : f N = g O -> (forall k r, (r < 4)%nat -> f (N + (4 * k + r))%nat = g r -> f (S (N + (4 * k + r))) = g (Nat.modulo (S r) 4)) ->
  forall k r, (r < 4)%nat -> f (N + (4 * k + r))%nat = g r.
Proof.
  intros H0 H. assert (G : forall n, f (N + n)%nat = g (Nat.modulo n 4)).
  { induction n as [|n IH]; [rewrite Nat.add_0_r; exact H0|]. pose proof (Nat.div_mod n 4 ltac:(lia)) as D. pose proof (Nat.mod_upper_bound n 4 ltac:(lia)) as U. specialize (H (Nat.div n 4) (Nat.modulo n 4) U). rewrite <- D in H. specialize (H IH).
    replace (N + S n)%nat with (S (N + n)) by lia. rewrite H. f_equal. exact (Nat.add_mod_idemp_r 1 n 4 ltac:(lia)). }
  intros k r Lr. rewrite G. f_equal. rewrite Nat.add_comm, Nat.mul_comm, Nat.mod_add, Nat.mod_small by lia. reflexivity.
Qed.
Lemma late k : forall r, (r < 4)%nat -> xs (N0 + (4 * k + r)) = turn r.
Proof.
  apply cycle4; [exact at_N|]. intros k0 r Lr E. pose proof (mvs_late k0 r Lr) as M. set (n := (N0 + (4 * k0 + r))%nat) in *. clearbody n. apply (run_step n). rewrite M, E.
  destruct r as [|[|[|[|r]]]]; [exact s0_poll|exact s0_run|exact s1_run|exact s2_run|lia].
Qed.
Lemma split4 n : (N0 <= n)%nat -> exists k r, (r < 4)%nat /\ n = (N0 + (4 * k + r))%nat.
Proof. intros L. exists (Nat.div (n - N0) 4), (Nat.modulo (n - N0) 4). pose proof (Nat.div_mod (n - N0) 4 ltac:(lia)). pose proof (Nat.mod_upper_bound (n - N0) 4 ltac:(lia)). lia. Qed.
Lemma execution_ : lexecution bp0 al0 al1 cfg_lidar cfg_reg true xp xs xa.
Proof.
  constructor.
  - unfold xp, xs. cbn [run]. unfold begin. destruct (play al0 al1 cfg_lidar cfg_reg true (start cfg_reg) before) as [[q s]|] eqn:E; [eapply play_reach; exact E|]. constructor.
  - intros n. unfold xa. destruct (Nat.lt_ge_cases n N0) as [L|L].
    + destruct (walks after 0 mvs_after walked_0) as [W _]. destruct (mvb_ok _ _ (W n L)) as [F [y' E]]. cbn [Nat.add] in *. unfold one in E. destruct (lstep _ _ _ _ _ _ (snd (run n)) _) as [[s'| |]|] eqn:Es; try discriminate.
      split; [exact F|]. destruct (run_step n s' Es) as [-> ->]. auto.
    + destruct (split4 n L) as (k & r & Lr & ->). pose proof (late k r Lr) as E. pose proof (mvs_late k r Lr) as M. set (n := (N0 + (4 * k + r))%nat) in *. clearbody n.
      assert (X : fine cfg_lidar (xp n) (xs n) (lab_mv (mvs n)) /\ exists s', lstep bp0 al0 al1 cfg_lidar cfg_reg true (xs n) (lab_mv (mvs n)) = Some (Ok s')).
      { rewrite M, E. destruct r as [|[|[|[|r]]]]; try lia; cbn [turn lab_mv lab_of].
        - split; [unfold fine, calm; rewrite s0_idle; exact I|]. eexists. apply s0_poll.
        - split; [exact I|]. eexists. apply s0_run.
        - split; [exact I|]. eexists. apply s1_run.
        - split; [exact I|]. eexists. apply s2_run. }
      destruct X as [F [s' Es]]. destruct (run_step n s' Es) as [-> ->]. auto.
Qed.
Lemma nobody g q r : g <> GReg ThM -> ~ ready bp0 al0 al1 cfg_lidar cfg_reg true g q (turn r).
Proof.
  intros N (a & s' & D & _ & E). assert (Er : exists r', (r' < 3)%nat /\ turn r = match r' with 0%nat => s0 | 1%nat => s1 | _ => s2 end) by (destruct r as [|[|[|[|r]]]]; cbn [turn]; [exists 0%nat|exists 0%nat|exists 1%nat|exists 2%nat|exists 0%nat]; split; auto; lia).
  destruct Er as (r' & Lr & Er). rewrite Er in E. clear Er r.
  destruct g as [|t| | |w|t]; destruct a as [i| | |m|gg| |l|b]; cbn [does] in D; try (destruct w; destruct D; fail); try destruct D; try (destruct w; [|congruence]).
  - destruct r' as [|[|[|]]]; try lia; vm_compute in E; discriminate.
  - subst t. destruct m; try (cbn in H0; congruence); destruct r' as [|[|[|]]]; try lia; vm_compute in E; discriminate.
  - destruct r' as [|[|[|]]]; try lia; vm_compute in E; discriminate.
  - destruct r' as [|[|[|]]]; try lia; vm_compute in E; discriminate.
  - destruct l; try destruct D. destruct r' as [|[|[|]]]; try lia; vm_compute in E; discriminate.
  - destruct b; cbn in D; try destruct D; destruct t0; destruct r' as [|[|[|]]]; try lia; vm_compute in E; discriminate.
Qed.
Lemma fair_ : lfair bp0 al0 al1 cfg_lidar cfg_reg true xp xs xa.
Proof.
  intros g n H. assert (D : g = GReg ThM \/ g <> GReg ThM) by (destruct g as [| | | |[]|]; auto; right; discriminate). destruct D as [->|D].
  - exists (N0 + (4 * n + 1))%nat. split; [lia|]. unfold xa. rewrite (mvs_late n 1) by lia. exact I.
  - destruct (H (Nat.max n N0) ltac:(lia)) as (m' & L & [Rd|(j & Hj & X)]); [|exists j; split; [lia|exact X]]. exfalso.
    destruct (split4 m' ltac:(lia)) as (k & r & Lr & ->). rewrite (late k r Lr) in Rd. eapply nobody; eauto.
Qed.
Definition time_ (k : nat) : Z := nth k [100000; 200000] 0.
Definition fr (n : nat) : fe := l_f (xs n).
Fixpoint forall_walk (f : past * loop -> bool) (y : past * loop) (l : list mv) : bool :=
  f y && match l with [] => true | v :: l' => match one_ y (lab_mv v) with Some y' => forall_walk f y' l' | None => false end end.
Lemma walk_all f : forall l n, (forall i v, nth_error l i = Some v -> mvs (n + i) = v) -> forall_walk f (run n) l = true -> forall i, (i <= List.length l)%nat -> f (run (n + i)) = true.
Proof.
  induction l as [|v l IH]; intros n Hv W i L; cbn [forall_walk] in W; apply andb_prop in W; destruct W as [W1 W2]; (destruct i as [|i]; [rewrite Nat.add_0_r; exact W1|]); cbn in L; [lia|].
  pose proof (Hv O v eq_refl) as E0. rewrite Nat.add_0_r in E0. destruct (one_ (run n) (lab_mv v)) as [y'|] eqn:Eo; [|discriminate]. assert (Er : run (S n) = y') by (cbn [run]; rewrite E0, Eo; reflexivity). rewrite <- Er in W2.
  replace (n + S i)%nat with (S n + i)%nat by lia. apply IH; [|exact W2|lia]. intros j w Hw. replace (S n + j)%nat with (n + S j)%nat by lia. apply (Hv (S j)). exact Hw.
Qed.
Lemma walk_all0 f : forall_walk f begin after = true -> forall i, (i <= N0)%nat -> f (run i) = true.
Proof. intros H i L. rewrite <- run_0 in H. pose proof (walk_all f after 0 mvs_after H i L) as X. rewrite Nat.add_0_l in X. exact X. Qed.
Definition statesf (f : fe) : bool := match announced (f_out f) with [a; b] => (a =? 100000) && (b =? 200000) | _ => false end.
Definition statesb (y : past * loop) : bool := statesf (l_f (snd y)).
Lemma statesb_eq n : statesb (run n) = statesf (l_f (xs n)). Proof. reflexivity. Qed.
Lemma states_0 : statesf (l_f s0) = true. Proof. vm_compute. reflexivity. Qed.
Lemma states_walk : forall_walk statesb begin after = true. Proof. vm_compute. reflexivity. Qed.
Lemma mstate_front m : l_f (mstate m) = l_f s0.
Proof. unfold mstate. generalize (l_r s0). intros q. generalize s0. intros s. destruct q. cbn [l_f]. reflexivity. Qed.
Lemma turn_front r : l_f (turn r) = l_f s0.
Proof. unfold turn. destruct r as [|[|[|[|r]]]]; [reflexivity|reflexivity|apply mstate_front|apply mstate_front|reflexivity]. Qed.
Lemma states_all n : statesb (run n) = true.
Proof.
  destruct (Nat.le_gt_cases n N0) as [L|L].
  - exact (walk_all0 statesb states_walk n L).
  - destruct (split4 n ltac:(lia)) as (k & r & Lr & ->). rewrite statesb_eq, (late k r Lr), turn_front. exact states_0.
Qed.
Lemma timeline_ : timeline xs time_.
Proof.
  intros n k t E. pose proof (states_all n) as X. rewrite statesb_eq in X. unfold statesf in X. destruct (announced (f_out (l_f (xs n)))) as [|a [|b [|]]]; try discriminate. apply andb_prop in X. destruct X as [X1 X2].
  destruct k as [|[|k]]; cbn in E; [injection E as <-|injection E as <-|destruct k; discriminate]; unfold time_; cbn; lia.
Qed.
Lemma polled_ : polled xa.
Proof. intros n. exists (N0 + (4 * n + 0))%nat. split; [lia|]. unfold xa. rewrite (mvs_late n 0) by lia. reflexivity. Qed.
Lemma note_poll s q : h_f (note s LPoll q) = h_f q ++ [IPoll]. Proof. reflexivity. Qed.
Lemma note_reg s l q : h_f (note s (LReg l) q) = h_f q. Proof. reflexivity. Qed.
Lemma late_step n : (N0 <= n)%nat -> h_f (xp (S n)) = h_f (xp n) ++ [IPoll] \/ h_f (xp (S n)) = h_f (xp n).
Proof.
  intros L. pose proof (le_step _ _ _ _ _ _ _ _ _ execution_ n) as X. unfold xa in X. destruct X as (_ & _ & X). rewrite X. destruct (split4 n L) as (k & r & Lr & E). assert (M : mvs n = match r with O => A Pol | _ => A RM end) by (rewrite E; apply mvs_late; exact Lr). rewrite M.
  destruct r; [left; apply note_poll|right; apply note_reg].
Qed.
Lemma growth (h : nat -> list fin) N : (forall n, (N <= n)%nat -> h (S n) = h n ++ [IPoll] \/ h (S n) = h n) -> forall n, (N <= n)%nat -> in_clouds (h n) = in_clouds (h N) /\ exists o, h n = h N ++ o.
Proof.
  intros H n L. induction L as [|n L [IH1 [o IH2]]]; [split; [reflexivity|exists []; rewrite app_nil_r; reflexivity]|]. destruct (H n L) as [->| ->]; [|eauto].
  split; [unfold in_clouds in *; rewrite flat_map_app, IH1; cbn; apply app_nil_r|]. rewrite IH2, <- app_assoc. eauto.
Qed.
Lemma late_clouds n : (N0 <= n)%nat -> in_clouds (h_f (xp n)) = in_clouds (h_f (xp N0)) /\ exists o, h_f (xp n) = h_f (xp N0) ++ o.
Proof. exact (growth (fun n => h_f (xp n)) N0 late_step n). Qed.
Definition p0 : past := match walk begin after with Some y => fst y | None => fst begin end.
Lemma at_Np : xp N0 = p0.
Proof. unfold xp, p0. pose proof (proj2 (walks after 0 mvs_after walked_0)) as E. rewrite run_0, Nat.add_0_l in E. fold N0 in E. rewrite E. reflexivity. Qed.
Definition seven (h : list fin) : bool := existsb (fun i => match i with IImu t v => (t =? 355000) && (v =? 7) | _ => false end) h.
Lemma seven_in h : seven h = true -> In (IImu 355000 7) h.
Proof. intros Y. apply existsb_exists in Y. destruct Y as (i & Hi & Y). destruct i; try discriminate. apply andb_prop in Y. replace 355000 with t by lia. replace 7 with v by lia. exact Hi. Qed.
Lemma p0_seven : seven (h_f p0) = true. Proof. vm_compute. reflexivity. Qed.
Definition bounded (l : list (Z * Z)) : bool := forallb (fun q => (snd q =? 50000) && (fst q <=? 300)) l.
Lemma bounded_in l u sw : bounded l = true -> In (u, sw) l -> sw = 50000 /\ u <= 300.
Proof. unfold bounded. rewrite forallb_forall. intros H Hu. specialize (H _ Hu). cbn [fst snd] in H. lia. Qed.
Lemma p0_bounded : bounded (in_clouds (h_f p0)) = true. Proof. vm_compute. reflexivity. Qed.
Lemma early_clouds n q : (n <= N0)%nat -> In q (in_clouds (h_f (xp n))) -> In q (in_clouds (h_f (xp N0))).
Proof.
  intros L H. destruct (hf_grow bp0 al0 al1 cfg_lidar cfg_reg true xp xs xa execution_ n N0 L) as [o E]. rewrite E. unfold in_clouds in *. rewrite flat_map_app. apply in_or_app. left. exact H.
Qed.
Lemma imu_follows_ : imu_follows xp.
Proof.
  intros n u sw H. assert (Hu : In (u, sw) (in_clouds (h_f (xp N0)))).
  { destruct (Nat.le_gt_cases N0 n) as [L|L]; [rewrite <- (proj1 (late_clouds n L)); exact H|]. exact (early_clouds n (u, sw) (Nat.lt_le_incl _ _ L) H). }
  rewrite at_Np in Hu. destruct (bounded_in _ _ _ p0_bounded Hu) as [-> Lu].
  exists (Nat.max n N0), 355000, 7. split; [apply Nat.le_max_l|]. split; [|unfold from_pcl; lia].
  destruct (late_clouds (Nat.max n N0) (Nat.le_max_r _ _)) as [_ [o E]]. rewrite E, at_Np. apply in_or_app. left. exact (seven_in _ p0_seven).
Qed.
(* every assumption holds; at the start the second cloud is out, but neither registered nor optimised, and its callback is still running *)
Lemma fair_pipeline : matching cfg_lidar cfg_reg /\ c_reg cfg_reg = true /\ enough_workers cfg_reg /\ lexecution bp0 al0 al1 cfg_lidar cfg_reg true xp xs xa /\ lfair bp0 al0 al1 cfg_lidar cfg_reg true xp xs xa /\ timeline xs time_ /\
  features_follow cfg_reg xp xs /\ polled xa /\ imu_follows xp /\ images_follow cfg_lidar xp /\
  cloud_stamps (l_f (xs 0)) = [100000; 200000] /\ r_pub Z Z (l_r (xs 0)) = [] /\ odoms (y_ev (l_b (xs 0))) = [(0, 100000)] /\ f_pc (l_f (xs 0)) = PBaro 300 50000 200000 /\
  odoms (y_ev (l_b (xs N0))) = [(0, 100000); (1, 200000)].
Proof.
  split; [exact reg_matching|]. split; [reflexivity|]. split; [unfold enough_workers; cbn; lia|]. split; [exact execution_|]. split; [exact fair_|]. split; [exact timeline_|]. split; [intros Hs; discriminate|]. split; [exact polled_|]. split; [exact imu_follows_|]. split; [intros Hs; discriminate|].
  split; [vm_compute; reflexivity|]. split; [vm_compute; reflexivity|]. split; [vm_compute; reflexivity|]. split; [vm_compute; reflexivity|]. rewrite at_N. vm_compute. reflexivity.
Qed.
