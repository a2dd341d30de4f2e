(* The pipeline never fails, and with registration it never waits for itself. *)
From Verif Require Import Base ImuModel ImuSpec ImuProofs FeModel FeSpec FeBaro FeProofs FeImu FeLive.
From Verif Require Import RegModel RegSpec RegProofs RegMore.
From Verif Require Import GmModel GmReady BeModel BeSpec BeProofs BeAbs BeInv BeSect BeHealthy BeLive LpModel LpSpec LpProofs LpInv.
Local Open Scope Z_scope.

Section Live.
Variable bp : Z -> Z -> Z -> Z -> Z.
Variable al_s al_m : Z -> Z -> Z -> Z.
Variable fc : fcfg.
Variable c : config.
Variable s2m : bool.

Notation lstep := (lstep bp al_s al_m fc c s2m).
Notation lreach := (lreach bp al_s al_m fc c s2m).
Notation rexec := (rexec Z Z al_s al_m s2m).
Notation linv := (linv bp al_s al_m fc c s2m).

(* ---- safety ---- *)
Lemma pipeline_safe p s a r : matching fc c -> lreach p s -> fine fc p s a -> lstep s a = Some r -> exists s', r = Ok s'.
Proof. intros Hm H F E. destruct (lreach_inv _ _ _ _ _ _ Hm _ _ H) as [d V]. destruct (linv_step _ _ _ _ _ _ Hm _ _ _ _ _ V F E) as (s' & d' & -> & _). eauto. Qed.

Lemma pipeline_no_fail p s t leak : matching fc c -> lreach p s -> pget (y_ctl (l_b s)) t <> CFail leak.
Proof.
  intros Hm H. destruct (lreach_inv _ _ _ _ _ _ Hm _ _ H) as [d V]. destruct (a_tau fc c Hm s d (c_t _ _ _ _ (v_f _ _ _ _ _ _ _ _ _ V))) as (tau & M & A & He).
  eapply never_fails; [exact He|]. apply (v_b _ _ _ _ _ _ _ _ _ V tau M A).
Qed.

Lemma calm_snoc : forall l i ins s s', calm_run fc ins s l -> fe_run fc s l = Ok s' -> calm fc (ins ++ l) s' i -> calm_run fc ins s (l ++ [i]).
Proof.
  induction l as [|x l IH]; intros i ins s s' C E F.
  - cbn in *. injection E as <-. rewrite app_nil_r in F. split; [exact F|]. destruct (fe_step fc s i); auto.
  - cbn [calm_run app fe_run] in *. destruct C as [C1 C2]. split; [exact C1|]. destruct (fe_step fc s x) as [s1| |] eqn:E1; auto. cbn [rbind] in E. eapply IH; [exact C2|exact E|]. rewrite <- app_assoc. exact F.
Qed.
Lemma run_snoc : forall l i s s' s2, fe_run fc s l = Ok s' -> fe_step fc s' i = Ok s2 -> fe_run fc s (l ++ [i]) = Ok s2.
Proof.
  induction l as [|x l IH]; intros i s s' s2 E F; cbn [app fe_run] in *; [injection E as <-; rewrite F; reflexivity|]. destruct (fe_step fc s x); try discriminate. cbn [rbind] in *. eapply IH; eauto.
Qed.
Lemma with_f_ok s r n s' : with_f s r n = Some (Ok s') -> exists f, r = Ok f /\ l_f s' = f.
Proof. unfold with_f. destruct r; cbn; intros E; try discriminate. injection E as <-. eauto. Qed.
Lemma with_r_ok s r n m s' : with_r s r n m = Some (Ok s') -> exists x, r = Some (Ok x) /\ l_r s' = x /\ l_f s' = l_f s /\ l_b s' = l_b s.
Proof. unfold with_r. destruct r as [[x| |]|]; cbn; intros E; try discriminate. injection E as <-. cbn. eauto. Qed.

(* each part stays within the contract its own properties assume *)
Lemma contracts p s : matching fc c -> lreach p s ->
  calm_run fc [] fe_init (h_f p) /\ fe_run fc fe_init (h_f p) = Ok (l_f s) /\
  (exists tau, environment c tau /\ (forall n t, nth_error (announced (f_out (l_f s))) n = Some t -> tau (Z.of_nat n) = t) /\ hreach bp c tau (h_b p) (l_b s)) /\
  rexec (h_r p) (rinit Z Z) = Some (Ok (l_r s)).
Proof.
  intros Hm H. destruct (lreach_inv _ _ _ _ _ _ Hm _ _ H) as [d V]. split; [|split; [|split]].
  3:{ destruct (a_tau fc c Hm s d (c_t _ _ _ _ (v_f _ _ _ _ _ _ _ _ _ V))) as (tau & M & A & He). exists tau. split; [exact He|]. split; [exact A|apply (v_b _ _ _ _ _ _ _ _ _ V tau M A)]. }
  3:{ apply V. }
  all: clear d V.
  all: assert (X : calm_run fc [] fe_init (h_f p) /\ fe_run fc fe_init (h_f p) = Ok (l_f s)); [|apply X].
  all: (induction H as [|p s a s' H IH F E]; [cbn; auto|]; destruct (lreach_inv _ _ _ _ _ _ Hm _ _ H) as [d V]; destruct IH as [C R];
    destruct a as [i| | |m|g| |l|a]; cbn [LpModel.lstep note h_f] in *;
    [ destruct (sensor i) eqn:Es; [|discriminate]; destruct (with_f_ok _ _ _ _ E) as (f & Ef & ->); destruct F as [F _]; split; [eapply calm_snoc; eauto|eapply run_snoc; eauto]
    | destruct (with_f_ok _ _ _ _ E) as (f & Ef & ->); cbn in F; split; [eapply calm_snoc; eauto|eapply run_snoc; eauto]
    | destruct (nth_error (odoms (y_ev (l_b s))) (l_odo s)) as [[k t]|] eqn:En; [|discriminate]; destruct (with_f_ok _ _ _ _ E) as (f & Ef & ->);
      pose proof (odom_calm _ _ _ _ _ _ Hm _ _ _ _ _ V En) as F'; split; [eapply calm_snoc; eauto|eapply run_snoc; eauto]
    | destruct (next_on s m); [|discriminate]; destruct (sys_step bp c (l_b s) (ADeliver m)); [|discriminate]; cbn in E; injection E as <-; auto
    | destruct (nth_error (cloud_stamps (l_f s)) (l_scn s)) as [t|]; [|discriminate]; destruct (existsb (Z.eqb t) (trans (y_ev (l_b s)))); [|discriminate]; destruct (with_r_ok _ _ _ _ _ E) as (x & _ & _ & -> & _); auto
    | destruct (nth_error (cloud_stamps (l_f s)) (l_map s)) as [t|]; [|discriminate]; destruct (nth_error (odoms (y_ev (l_b s))) (l_map s)); [|discriminate]; destruct (with_r_ok _ _ _ _ _ E) as (x & _ & _ & -> & _); auto
    | destruct (works l); [|discriminate]; destruct (with_r_ok _ _ _ _ _ E) as (x & _ & _ & -> & _); auto
    | destruct (internalb a); [|discriminate]; destruct (sys_step bp c (l_b s) a); [|discriminate]; cbn in E; injection E as <-; auto ]).
Qed.

(* odometry is published for the announced states, in order *)
Lemma odometry_states p s n k t : matching fc c -> lreach p s -> nth_error (odoms (y_ev (l_b s))) n = Some (k, t) ->
  k = Z.of_nat n /\ nth_error (announced (f_out (l_f s))) n = Some t.
Proof. intros Hm H E. destruct (lreach_inv _ _ _ _ _ _ Hm _ _ H) as [d V]. exact (odoms_states _ _ _ _ _ _ Hm _ _ _ _ _ _ V E). Qed.

(* ---- registration ---- *)
Lemma reg_ok p s : lreach p s -> r_ok Z Z (l_r s) = true.
Proof.
  assert (K : forall l st st', match l with Down _ _ => False | _ => True end -> rstep Z Z al_s al_m s2m l st = Some (Ok st') -> r_ok Z Z st = true -> r_ok Z Z st' = true).
  { intros l [ok own qc qt pv x m pb] st' Hl E Hok. cbn in Hok. subst ok. destruct l; try contradiction; cbn in E.
    - destruct x; try discriminate. injection E as <-. reflexivity.
    - destruct m; try discriminate. injection E as <-. reflexivity.
    - destruct x; try discriminate; try (injection E as <-; reflexivity); [destruct pv; [destruct s2m|]|destruct own; [discriminate|]]; injection E as <-; reflexivity.
    - destruct m; try discriminate; try (injection E as <-; reflexivity).
      + destruct own; [discriminate|]; injection E as <-; reflexivity.
      + match type of E with (if ?b then _ else _) = _ => destruct b end; injection E as <-; reflexivity.
      + destruct qc; [discriminate|]; injection E as <-; reflexivity.
      + destruct qt; [discriminate|]; injection E as <-; reflexivity. }
  induction 1 as [|p s a s' H IH F E]; [reflexivity|]. destruct a as [i| | |m|g| |l|a]; cbn [LpModel.lstep] in E.
  - destruct (sensor i); [|discriminate]. unfold with_f in E. destruct (fe_step fc (l_f s) i); try discriminate. cbn in E. injection E as <-. exact IH.
  - unfold with_f in E. destruct (fe_step fc (l_f s) IPoll); try discriminate. cbn in E. injection E as <-. exact IH.
  - destruct (nth_error _ _) as [[k t]|]; [|discriminate]. unfold with_f in E. destruct (fe_step fc (l_f s) (IOdom t)); try discriminate. cbn in E. injection E as <-. exact IH.
  - destruct (next_on s m); [|discriminate]. destruct (sys_step bp c (l_b s) (ADeliver m)); [|discriminate]. cbn in E. injection E as <-. exact IH.
  - destruct (nth_error _ _) as [t|]; [|discriminate]. destruct (existsb _ _); [|discriminate]. destruct (with_r_ok _ _ _ _ _ E) as (x & Ex & -> & _). eapply K; [|exact Ex|exact IH]. exact I.
  - destruct (nth_error (cloud_stamps (l_f s)) (l_map s)) as [t|]; [|discriminate]. destruct (nth_error (odoms _) _); [|discriminate]. destruct (with_r_ok _ _ _ _ _ E) as (x & Ex & -> & _). eapply K; [|exact Ex|exact IH]. exact I.
  - destruct (works l) eqn:W; [|discriminate]. destruct (with_r_ok _ _ _ _ _ E) as (x & Ex & -> & _). eapply K; [|exact Ex|exact IH]. destruct l; try discriminate; exact I.
  - destruct (internalb a); [|discriminate]. destruct (sys_step bp c (l_b s) a); [|discriminate]. cbn in E. injection E as <-. exact IH.
Qed.

(* the refined result of a scan is computed against the map of the state before it, and the scan before it *)
Lemma same_frame p s n t x : matching fc c -> lreach p s -> s2m = true -> nth_error (r_pub Z Z (l_r s)) n = Some (t, x) ->
  exists q g k, nth_error (cloud_stamps (l_f s)) n = Some q /\ nth_error (cloud_stamps (l_f s)) (S n) = Some t /\
    x = al_m t q (al_s t q g) /\ In t (trans (y_ev (l_b s))) /\ nth_error (odoms (y_ev (l_b s))) n = Some (k, q).
Proof.
  intros Hm H -> E. destruct (lreach_inv _ _ _ _ _ _ Hm _ _ H) as [d V]. pose proof (c_t _ _ _ _ (v_f _ _ _ _ _ _ _ _ _ V)) as T.
  destruct (s2m_nth Z Z al_s al_m (h_r p) (l_r s) n t x (v_r _ _ _ _ _ _ _ _ _ V) E) as (q & h & g & m & E1 & E2 & E3 & ->).
  destruct (v_scn _ _ _ _ _ _ _ _ _ V) as [S1 S2]. destruct (v_map _ _ _ _ _ _ _ _ _ V) as (M1 & M2 & M3).
  pose proof (f_equal (fun l => nth_error l n) S1) as X1. pose proof (f_equal (fun l => nth_error l (S n)) S1) as X2. cbn beta in X1, X2. rewrite nth_error_map, E1 in X1. rewrite nth_error_map, E2 in X2. cbn [option_map fst] in X1, X2.
  symmetry in X1, X2. pose proof (nth_lt _ _ _ X2) as L2. rewrite firstn_length in L2. rewrite nth_firstn in X1 by lia. rewrite nth_firstn in X2 by lia.
  rewrite M1 in E3. pose proof (nth_lt _ _ _ E3) as L3. rewrite firstn_length in L3. rewrite nth_firstn in E3 by lia. rewrite X1 in E3. injection E3 as <-.
  destruct (nth_error (odoms (y_ev (l_b s))) n) as [[k o]|] eqn:Eo; [|apply nth_error_None in Eo; lia].
  exists q, g, k. conj; auto.
  - apply (v_trn _ _ _ _ _ _ _ _ _ V). apply in_map_iff. exists (t, g). split; [reflexivity|]. eapply nth_error_In; exact E2.
  - destruct (odoms_states _ _ _ _ _ _ Hm _ _ _ _ _ _ V Eo) as [_ Es]. destruct (clouds_states _ _ T) as (C1 & _). rewrite C1, nth_firstn in X1 by lia. congruence.
Qed.

(* ---- with registration ---- *)
Lemma pub_clouds p s d : linv p s d -> r_pub Z Z (l_r s) <> [] -> (S (List.length (r_pub Z Z (l_r s))) <= l_scn s <= List.length (cloud_stamps (l_f s)))%nat.
Proof.
  intros V N. destruct (v_scn _ _ _ _ _ _ _ _ _ V) as [S1 S2]. split; [|exact S2].
  assert (Ln : (0 < List.length (r_pub Z Z (l_r s)))%nat) by (destruct (r_pub Z Z (l_r s)); [congruence|cbn; lia]).
  destruct (nth_error (map fst (r_pub Z Z (l_r s))) (List.length (r_pub Z Z (l_r s)) - 1)) as [t|] eqn:E; [|apply nth_error_None in E; rewrite map_length in E; lia].
  apply (reg_nth _ _ _ _ _ _ _ (v_r _ _ _ _ _ _ _ _ _ V)) in E. rewrite S1 in E. apply nth_lt in E. rewrite firstn_length in E. lia.
Qed.

(* odometry is never ahead of the clouds *)
Lemma odoms_clouds p s d : matching fc c -> c_reg c = true -> linv p s d -> (List.length (odoms (y_ev (l_b s))) <= Nat.max 1 (List.length (cloud_stamps (l_f s))))%nat.
Proof.
  intros Hm Hr V. pose proof (c_t _ _ _ _ (v_f _ _ _ _ _ _ _ _ _ V)) as T. destruct (a_tau fc c Hm s d T) as (tau & M & A & He). pose proof (v_b _ _ _ _ _ _ _ _ _ V tau M A) as H.
  destruct (back_view bp c tau He _ _ H) as (K & U & K0 & U0 & EO & ET & FI & FU & FU' & FR). specialize (FR Hr).
  assert (EL : List.length (odoms (y_ev (l_b s))) = Z.to_nat (K + 1)) by (rewrite EO, map_length; unfold zrange; rewrite map_length, seq_length; lia). rewrite EL.
  destruct (Z.le_gt_cases 1 K) as [L|L]; [|lia]. specialize (FR L). rewrite (on_len _ _ _ _ _ _ _ _ _ TReg V ltac:(discriminate)) in FR.
  destruct (v_in _ _ _ _ _ _ _ _ _ V TReg ltac:(discriminate)) as [_ X]. cbn [posted] in X. rewrite map_length in X.
  destruct (pub_clouds _ _ _ V); [destruct (r_pub Z Z (l_r s)); [cbn [List.length] in X; lia|discriminate]|]. lia.
Qed.
Lemma odometry_behind p s : matching fc c -> c_reg c = true -> lreach p s -> (List.length (odoms (y_ev (l_b s))) <= Nat.max 1 (List.length (out_clouds (f_out (l_f s)))))%nat.
Proof. intros Hm Hr H. destruct (lreach_inv _ _ _ _ _ _ Hm _ _ H) as [d V]. pose proof (odoms_clouds _ _ _ Hm Hr V) as X. unfold cloud_stamps in X. rewrite map_length in X. exact X. Qed.

(* the state whose odometry the point cloud callback waits for *)
Lemma awaited p s d u sw new : linv p s d -> f_pc (l_f s) = PBias u sw new ->
  nth_error (states (l_f s)) (Nat.max 1 (List.length (cloud_stamps (l_f s))) - 1) = Some (f_pst (l_f s)) /\ List.length (cloud_stamps (l_f s)) = List.length d /\ List.length (states (l_f s)) = S (List.length d).
Proof.
  intros V Ep. pose proof (c_t _ _ _ _ (v_f _ _ _ _ _ _ _ _ _ V)) as T. pose proof (t_phase _ _ T) as Ph. unfold phase_ok in Ph. rewrite Ep in Ph. destruct Ph as (c0 & Ec & _).
  assert (Lc : List.length (cloud_stamps (l_f s)) = List.length d).
  { unfold cloud_stamps. rewrite map_length, (t_outc _ _ T), map_length. unfold clouded. rewrite Ep, app_nil_r. reflexivity. }
  assert (Cu : current (l_f s) = [(new, c0, u)]) by (unfold current; rewrite Ep, Ec; reflexivity).
  rewrite Lc. conj; [|reflexivity|rewrite (states_recs _ _ T), map_length, app_length, Cu; cbn; lia]. rewrite (states_recs _ _ T), map_app. destruct d as [|r0 d0] eqn:Ed.
  - pose proof (t_start _ _ T eq_refl) as X. rewrite Cu in *. cbn. rewrite X. reflexivity.
  - rewrite <- Ed in *. assert (N : d <> []) by (rewrite Ed; discriminate). replace (Nat.max 1 (List.length d) - 1)%nat with (List.length d - 1)%nat by (rewrite Ed; cbn; lia).
    apply nth_keep. rewrite nth_error_map, (last_nth_error _ r0 N). cbn. f_equal. symmetry. apply (t_pst _ _ T r0 N).
Qed.

Lemma never_overtakes p s u sw new : matching fc c -> c_reg c = true -> lreach p s -> f_pc (l_f s) = PBias u sw new -> f_bias (l_f s) <= f_pst (l_f s).
Proof.
  intros Hm Hr H Ep. destruct (lreach_inv _ _ _ _ _ _ Hm _ _ H) as [d V]. pose proof (c_t _ _ _ _ (v_f _ _ _ _ _ _ _ _ _ V)) as T.
  destruct (awaited _ _ _ _ _ _ V Ep) as (A & Lc & Ls). pose proof (odoms_clouds _ _ _ Hm Hr V) as O. pose proof (v_odo _ _ _ _ _ _ _ _ _ V) as Vo. pose proof (v_bias _ _ _ _ _ _ _ _ _ V) as B.
  destruct (l_odo s) as [|q] eqn:Eq.
  - rewrite B. apply Z.lt_le_incl. eapply state_pos; [exact V|]. eapply nth_error_In. exact A.
  - set (k := (Nat.max 1 (List.length (cloud_stamps (l_f s))) - 1)%nat) in *. destruct (Nat.eq_dec q k) as [->|N]; [rewrite A in B; injection B as ->; lia|]. pose proof (up_nth _ _ _ _ _ (states_up _ _ T) B A ltac:(lia)). lia.
Qed.

(* at rest, every published cloud has its odometry and the front end has it *)
Lemma rest_done p s : matching fc c -> c_reg c = true -> enough_workers c -> lreach p s -> features_in c p s -> at_rest bp fc c s2m s -> out_inits (f_out (l_f s)) <> [] ->
  List.length (odoms (y_ev (l_b s))) = Nat.max 1 (List.length (out_clouds (f_out (l_f s)))) /\
  (forall u sw new, f_pc (l_f s) = PBias u sw new -> f_bias (l_f s) = f_pst (l_f s)).
Proof.
  intros Hm Hr Hw H Hf Q Hi. destruct (lreach_inv _ _ _ _ _ _ Hm _ _ H) as [d V]. pose proof (c_t _ _ _ _ (v_f _ _ _ _ _ _ _ _ _ V)) as T. destruct (a_tau fc c Hm s d T) as (tau & M & A & He). pose proof (v_b _ _ _ _ _ _ _ _ _ V tau M A) as Hb.
  destruct (rest_view bp c tau He _ _ Hw Hb (q_back _ _ _ _ _ Q)) as (K & U & EO & ET & FI & FU & FS).
  assert (Lc : List.length (out_clouds (f_out (l_f s))) = List.length (cloud_stamps (l_f s))) by (unfold cloud_stamps; rewrite map_length; reflexivity). rewrite Lc.
  destruct (clouds_states _ _ T) as (C1 & C2 & C3 & C4). destruct (states_spans _ _ T) as [S1 S2].
  assert (K0 : 0 <= K).
  { apply FI. pose proof (on_len _ _ _ _ _ _ _ _ _ TInit V ltac:(discriminate)) as L. rewrite (q_send _ _ _ _ _ Q TInit eq_refl ltac:(discriminate)) in L. cbn [posted] in L. intros N. rewrite N in L. unfold len in L. cbn in L. destruct (out_inits _); [congruence|cbn in L; lia]. }
  assert (EL : List.length (odoms (y_ev (l_b s))) = Z.to_nat (K + 1)) by (rewrite EO, map_length; unfold zrange; rewrite map_length, seq_length; lia).
  set (n := List.length (cloud_stamps (l_f s))) in *.
  assert (X : (n <= Z.to_nat (K + 1))%nat).
  { destruct (Nat.le_gt_cases n (Z.to_nat (K + 1))) as [L|L]; [exact L|exfalso]. destruct (FU K0) as [U1 U2].
    assert (LI : len (on TImu (h_b p)) = Z.of_nat (List.length (states (l_f s)) - 1)).
    { rewrite (on_len _ _ _ _ _ _ _ _ _ TImu V ltac:(discriminate)), (q_send _ _ _ _ _ Q TImu eq_refl ltac:(discriminate)). cbn [posted]. rewrite S1. destruct (states (l_f s)); cbn; lia. }
    assert (UK : K + 1 <= U) by lia.
    assert (Ls : (Z.to_nat (K + 2) <= l_scn s)%nat).
    { destruct (Nat.le_gt_cases (Z.to_nat (K + 2)) (l_scn s)) as [G|G]; [exact G|exfalso]. destruct (nth_error (cloud_stamps (l_f s)) (l_scn s)) as [t|] eqn:Et; [|apply nth_error_None in Et; fold n in Et; lia].
      apply (q_scan _ _ _ _ _ Q t Et). pose proof (nth_lt _ _ _ Et) as Lt. fold n in Lt. rewrite C1, nth_firstn in Et by exact Lt. rewrite ET. apply in_map_iff. exists (Z.of_nat (l_scn s)). split; [apply A; exact Et|]. apply in_zrange. lia. }
    destruct (v_scn _ _ _ _ _ _ _ _ _ V) as [V1 V2]. fold n in V2.
    assert (Lsc : List.length (scans Z Z (h_r p)) = l_scn s). { pose proof (f_equal (@List.length Z) V1) as Y. rewrite map_length, firstn_length in Y. fold n in Y. lia. }
    assert (P : (Z.to_nat (K + 1) <= List.length (r_pub Z Z (l_r s)))%nat).
    { pose proof (v_r _ _ _ _ _ _ _ _ _ V) as R. destruct s2m eqn:E2.
      - destruct (q_m _ _ _ _ _ Q eq_refl) as (Q1 & Q2). destruct Q2 as [[Q2 Q3]|(m & Q2 & Q3)].
        + destruct (s2m_idle_done Z Z al_s al_m _ _ R) as [Y _]; [rewrite <- E2 in H; apply (reg_ok _ _ H)|exact Q2|]. destruct (v_map _ _ _ _ _ _ _ _ _ V) as (M1 & M2 & M3).
          pose proof (f_equal (@List.length Z) M1) as Y2. rewrite firstn_length in Y2. fold n in Y2, M2, Q3. rewrite Y. rewrite EL in *. lia.
        + destruct (s2m_queues Z Z al_s al_m _ _ R Q1) as [Y1 _]. destruct (rinv_exec Z Z al_s al_m _ _ _ _ _ _ (rinv_init Z Z al_s al_m) R) as (st' & D & Dm & E & I0). injection E as <-. cbn [app] in I0.
          pose proof (f_equal (@List.length Z) (ri_c _ _ _ _ _ _ _ _ I0)) as Y3. rewrite !app_length, !map_length in Y3. rewrite (q_s _ _ _ _ _ Q) in Y3. rewrite s2s_length in Y3.
          rewrite (ri_pub _ _ _ _ _ _ _ _ I0), map_length, combine_length, (ri_len _ _ _ _ _ _ _ _ I0), Nat.min_id. rewrite (ri_len _ _ _ _ _ _ _ _ I0) in Y3.
          assert (Zq : List.length (r_qc Z Z (l_r s)) = 0%nat) by (destruct Q3 as [Q3|Q3]; rewrite Q3 in Y1; cbn in Y1; [rewrite Q3; reflexivity|lia]).
          destruct Q2 as [Q2|Q2]; rewrite Q2 in Y3; cbn [hand_c pend_c List.length] in Y3; lia.
      - destruct (s2s_only Z Z al_s al_m _ _ R) as [_ Y]. rewrite (Y (q_s _ _ _ _ _ Q)), s2s_length. lia. }
    assert (Sp : supplied c tau (h_b p) (K + 1)).
    { split; [lia|]. split.
      - intros _. rewrite (on_len _ _ _ _ _ _ _ _ _ TReg V ltac:(discriminate)), (q_send _ _ _ _ _ Q TReg Hr ltac:(discriminate)). cbn [posted]. rewrite map_length. lia.
      - intros Hs. destruct (nth_error (cloud_stamps (l_f s)) (Z.to_nat (K + 1))) as [t|] eqn:Et; [|apply nth_error_None in Et; fold n in Et; lia]. destruct (Hf Hs t (nth_error_In _ _ Et)) as (m & Hm1 & Hm2). exists m. split; [exact Hm1|].
        pose proof (nth_lt _ _ _ Et) as Lt. fold n in Lt. rewrite C1, nth_firstn in Et by exact Lt. apply A in Et. rewrite Z2Nat.id in Et by lia. lia. }
    apply FS in Sp. lia. }
  assert (EN : List.length (odoms (y_ev (l_b s))) = Nat.max 1 n). { pose proof (odoms_clouds _ _ _ Hm Hr V) as O. fold n in O. lia. }
  split; [exact EN|]. intros u sw new Ep. destruct (awaited _ _ _ _ _ _ V Ep) as (B1 & _). fold n in B1. pose proof (v_bias _ _ _ _ _ _ _ _ _ V) as B. rewrite (q_odo _ _ _ _ _ Q), EN in B.
  destruct (Nat.max 1 n) as [|q] eqn:Eq; [lia|]. replace (S q - 1)%nat with q in B1 by lia. congruence.
Qed.

(* ---- odometry that overtakes the wait stops the front end for good ---- *)
Lemma overtaken p s u sw new p' s' : matching fc c -> lreach p s -> f_pc (l_f s) = PBias u sw new -> f_pst (l_f s) < f_bias (l_f s) -> later bp al_s al_m fc c s2m p s p' s' ->
  f_pc (l_f s') = PBias u sw new /\ out_clouds (f_out (l_f s')) = out_clouds (f_out (l_f s)).
Proof.
  intros Hm H Ep Hb L.
  assert (X : lreach p' s' /\ f_pc (l_f s') = PBias u sw new /\ out_clouds (f_out (l_f s')) = out_clouds (f_out (l_f s)) /\ f_pst (l_f s') = f_pst (l_f s) /\ f_pst (l_f s) < f_bias (l_f s')); [|tauto].
  induction L as [|p' s' a s2 L IH F E]; [auto 10|]. destruct IH as (R & I1 & I2 & I3 & I4). split; [econstructor; eauto|].
  assert (W : forall i f, fe_step fc (l_f s') i = Ok f -> (forall t, i = IOdom t -> f_pst (l_f s) < t) -> f_pc f = PBias u sw new /\ out_clouds (f_out f) = out_clouds (f_out (l_f s)) /\ f_pst f = f_pst (l_f s) /\ f_pst (l_f s) < f_bias f).
  { intros i f Ef Hi. assert (Ef' : fe_run fc (l_f s') [i] = Ok f) by (cbn; rewrite Ef; reflexivity).
    destruct (lost_wakeup fc [i] (l_f s') f u sw new I1) as (A1 & A2 & A3); [lia|intros t [Ht|[]]; rewrite I3; auto|exact Ef'|]. conj; try congruence. rewrite (fe_bias _ _ _ _ Ef). destruct i; auto. }
  destruct a as [i| | |m|g| |l|a]; cbn [LpModel.lstep] in E.
  - destruct (sensor i) eqn:Es; [|discriminate]. destruct (with_f_ok _ _ _ _ E) as (f & Ef & ->). apply (W i f Ef). intros t ->. discriminate.
  - destruct (with_f_ok _ _ _ _ E) as (f & Ef & ->). apply (W _ f Ef). intros t; discriminate.
  - destruct (nth_error (odoms (y_ev (l_b s'))) (l_odo s')) as [[k t]|] eqn:En; [|discriminate]. destruct (with_f_ok _ _ _ _ E) as (f & Ef & ->). apply (W _ f Ef). intros t' [= <-].
    destruct (lreach_inv _ _ _ _ _ _ Hm _ _ R) as [d V]. destruct (odoms_states _ _ _ _ _ _ Hm _ _ _ _ _ _ V En) as [_ Es]. pose proof (v_bias _ _ _ _ _ _ _ _ _ V) as B. pose proof (c_t _ _ _ _ (v_f _ _ _ _ _ _ _ _ _ V)) as T.
    destruct (awaited _ _ _ _ _ _ V I1) as (Aw & _ & _). destruct (l_odo s') as [|q].
    + assert (0 < f_pst (l_f s')) by (eapply state_pos; [exact V|eapply nth_error_In; exact Aw]). lia.
    + pose proof (up_nth _ _ _ _ _ (states_up _ _ T) B Es ltac:(lia)). lia.
  - destruct (next_on s' m); [|discriminate]. destruct (sys_step bp c (l_b s') (ADeliver m)); [|discriminate]. cbn in E. injection E as <-. auto.
  - destruct (nth_error _ _) as [t|]; [|discriminate]. destruct (existsb _ _); [|discriminate]. destruct (with_r_ok _ _ _ _ _ E) as (x & Ex & _ & -> & _). auto.
  - destruct (nth_error (cloud_stamps (l_f s')) (l_map s')) as [t|]; [|discriminate]. destruct (nth_error (odoms _) _); [|discriminate]. destruct (with_r_ok _ _ _ _ _ E) as (x & Ex & _ & -> & _). auto.
  - destruct (works l) eqn:Wk; [|discriminate]. destruct (with_r_ok _ _ _ _ _ E) as (x & Ex & _ & -> & _). auto.
  - destruct (internalb a); [|discriminate]. destruct (sys_step bp c (l_b s') a); [|discriminate]. cbn in E. injection E as <-. auto.
Qed.
End Live.
