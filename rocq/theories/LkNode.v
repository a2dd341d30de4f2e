(* The serpent node *)
From Coq Require Import String List Arith Lia Bool Relations.
From Verif Require Import Base LkModel LkSpec LkProofs.
Import ListNotations.
Local Open Scope nat_scope.
Open Scope string_scope.

(* the synchronisers' mutexes come before the others, and preintegration_mutex before imu_data_mutex *)
Definition order : list string :=
  (map (fun n => (n ++ " sync")%string) [odometry_callback; "Frontend::stereo_callback"; "Mapping::map_update_callback"; "Registration::s2s_callback"; "StereoFactorFinder::stereo_callback"] ++
   [pre_m; imu_m; ste_m; bar_m; gra_m; map_m; s2s_m])%list.

Lemma node_good : forallb good node = true.
Proof. vm_compute. reflexivity. Qed.
Lemma node_ordered : ordered node order = true.
Proof. vm_compute. reflexivity. Qed.
Lemma node_sleeps : sleeps_free node = true.
Proof. vm_compute. reflexivity. Qed.
Lemma node_guarded : guarded node protected_by deskewing skew_data = true.
Proof. vm_compute. reflexivity. Qed.
Lemma node_enters : enters_with node deskewing pre_m = true.
Proof. vm_compute. reflexivity. Qed.
Lemma node_apart : potential (Some (deskewing, odometry_cbs, pre_m)) node = [].
Proof. vm_compute. reflexivity. Qed.

Definition skew_raceb (x : nat * nat * nat * nat * string) : bool :=
  let '(a, la, b, lb, f) := x in
  let one a la b lb := existsb (Nat.eqb a) odometry_cbs && Nat.eqb b pointcloud_cb && existsb (fun y => Nat.eqb la (fst y) && String.eqb f (snd y)) [(274, "fe.world_state"); (303, "fe.imu_biases"); (310, "fe.preintegration_params")] && Nat.leb 462 lb && Nat.leb lb 493 in
  one a la b lb || one b lb a la.
Lemma node_potential : forallb skew_raceb (potential None node) = true.
Proof. vm_compute. reflexivity. Qed.

Lemma skew_one a la b lb f : existsb (Nat.eqb a) odometry_cbs && Nat.eqb b pointcloud_cb && existsb (fun y => Nat.eqb la (fst y) && String.eqb f (snd y)) [(274, "fe.world_state"); (303, "fe.imu_biases"); (310, "fe.preintegration_params")] && Nat.leb 462 lb && Nat.leb lb 493 = true -> skew_race a la b lb f.
Proof.
  intros H. apply andb_true_iff in H. destruct H as [H H5]. apply andb_true_iff in H. destruct H as [H H4]. apply andb_true_iff in H. destruct H as [H H3]. apply andb_true_iff in H. destruct H as [H1 H2].
  apply existsb_exists in H1. destruct H1 as (x & H1 & Ex). apply Nat.eqb_eq in Ex. subst x. apply Nat.eqb_eq in H2. apply existsb_exists in H3. destruct H3 as ((l, g) & H3 & Ey). apply andb_true_iff in Ey. destruct Ey as [Ey1 Ey2]. apply Nat.eqb_eq in Ey1. apply String.eqb_eq in Ey2. cbn [fst snd] in Ey1, Ey2. subst l g.
  apply Nat.leb_le in H4, H5. repeat split; assumption.
Qed.

Theorem node_races w c1 l1 c2 l2 f : reach node anything w -> race w c1 l1 c2 l2 f -> skew_race c1 l1 c2 l2 f \/ skew_race c2 l2 c1 l1 f.
Proof.
  intros R H. pose proof (races_found node node_good None w c1 l1 c2 l2 f I R (or_intror eq_refl) H) as X. pose proof (proj1 (forallb_forall _ _) node_potential _ X) as G. unfold skew_raceb in G. cbv zeta in G.
  apply orb_true_iff in G. destruct G as [G|G]; [left|right]; apply skew_one; exact G.
Qed.

Theorem node_race_free w c1 l1 c2 l2 f : reach node (kept_out deskewing odometry_cbs pre_m) w -> w_up w = true -> ~ race w c1 l1 c2 l2 f.
Proof.
  intros R Hup H. pose proof (races_found node node_good (Some (deskewing, odometry_cbs, pre_m)) w c1 l1 c2 l2 f node_enters R (or_introl Hup) H) as X. rewrite node_apart in X. destruct X.
Qed.

Theorem node_guards w t th f b l m fs : reach node anything w -> w_thr w t = Some th -> accesses th f b l -> In (m, fs) protected_by -> In f fs ->
  w_own w m = Some t \/ (b = false /\ In f skew_data /\ In deskewing (t_in th)).
Proof. apply (guarded_access node node_good protected_by deskewing skew_data anything w t th f b l m fs node_guarded). Qed.

Theorem node_proper w : reach node anything w -> w_up w = true -> proper_use w.
Proof. apply (reach_proper node node_good). Qed.
Theorem node_unlock w t th m k : reach node anything w -> w_thr w t = Some th -> t_k th = Unlock m :: k -> w_own w m = Some t.
Proof. apply (reach_unlock node node_good). Qed.
Theorem node_ends w t th m : reach node anything w -> w_up w = true -> w_thr w t = Some th -> t_k th = [] -> w_own w m <> Some t.
Proof. apply (reach_end node node_good). Qed.
Theorem node_sleeping w t th k m : reach node anything w -> w_up w = true -> w_thr w t = Some th -> t_k th = Sleep :: k -> w_own w m <> Some t.
Proof. apply (reach_sleep node node_good anything w t th k m node_sleeps). Qed.
Theorem node_no_deadlock w t th : reach node anything w -> w_up w = true -> w_thr w t = Some th ->
  exists t', clos_refl_trans nat (waits w) t t' /\ can_step node w t'.
Proof. apply (no_deadlock node node_good order anything w t th node_ordered). Qed.
