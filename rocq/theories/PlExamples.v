(* Concrete executions on few threads. *)
From Verif Require Import Base ImuModel ImuSpec ImuProofs FeModel FeSpec FeBaro FeProofs FeImu FeLive FeExamples.
From Verif Require Import RegModel RegSpec RegProofs RegMore.
From Verif Require Import GmModel GmReady GmExamples GmReadyEx BeModel BeSpec BeProofs BeAbs BeInv BeSect BeHealthy BeLive BeExamples LpModel LpSpec LpProofs LpInv LpLive LpExamples.
From Verif Require Import PlModel PlSpec PlProofs PlStuck.
Local Open Scope Z_scope.

Section Drive.
Variable fc : fcfg.
Variable c : config.
Variable s2m : bool.
Notation preach := (preach bp0 al0 al1 fc c s2m).

Definition pone (x : past * loop) (a : lact) : option (past * loop) :=
  match pstep bp0 al0 al1 fc c s2m (snd x) a with Some (Ok s') => Some (note (snd x) a (fst x), s') | _ => None end.
Fixpoint psection (fuel : nat) (t : tid) (x : past * loop) : past * loop :=
  match fuel with
  | O => x
  | S f => match pget (y_ctl (l_b (snd x))) t with
           | CHold _ _ | CRun _ _ => match pone x (LBack (AStep t)) with Some x' => psection f t x' | None => x end
           | _ => x
           end
  end.
Definition pplay1 (x : past * loop) (i : ins) : option (past * loop) :=
  if fineb fc (fst x) (snd x) i then
    match pone x (lab_of i) with
    | Some x' =>
        match i with
        | Job t => match pone x' (LBack (ALock t)) with Some x2 => Some (psection lots t x2) | None => None end
        | Again t => Some (psection lots t x')
        | _ => Some x'
        end
    | None => None
    end
  else None.
Fixpoint pplay (x : past * loop) (l : list ins) : option (past * loop) :=
  match l with [] => Some x | i :: l' => match pplay1 x i with Some x' => pplay x' l' | None => None end end.

Lemma pone_reach x a x' : preach (fst x) (snd x) -> fine fc (fst x) (snd x) a -> pone x a = Some x' -> preach (fst x') (snd x').
Proof.
  intros L F E. unfold pone in E. destruct (pstep bp0 al0 al1 fc c s2m (snd x) a) as [[s'| |]|] eqn:Es; try discriminate. injection E as <-. cbn [fst snd]. econstructor; eauto.
Qed.
Lemma psection_reach t : forall fuel x, preach (fst x) (snd x) -> preach (fst (psection fuel t x)) (snd (psection fuel t x)).
Proof.
  induction fuel as [|f IH]; intros x L; [exact L|]. cbn [psection]. destruct (pget _ t); auto; destruct (pone x (LBack (AStep t))) as [x'|] eqn:E; auto; apply IH; eapply pone_reach; eauto; exact I.
Qed.
Lemma pplay_reach : forall l x x', preach (fst x) (snd x) -> pplay x l = Some x' -> preach (fst x') (snd x').
Proof.
  induction l as [|i l IH]; intros x x' L E; [injection E as <-; exact L|]. cbn [pplay] in E. destruct (pplay1 x i) as [x1|] eqn:E1; [|discriminate]. eapply IH; [|exact E].
  unfold pplay1 in E1. destruct (fineb fc (fst x) (snd x) i) eqn:Ef; [|discriminate]. apply fineb_ok in Ef. destruct (pone x (lab_of i)) as [x2|] eqn:E2; [|discriminate]. pose proof (pone_reach _ _ _ L Ef E2) as L2.
  revert E1. generalize lots. intros n E1. destruct i; try (injection E1 as <-; exact L2).
  - destruct (pone x2 (LBack (ALock t))) as [x3|] eqn:E3; [|discriminate]. injection E1 as <-. apply psection_reach. eapply pone_reach; eauto. exact I.
  - injection E1 as <-. apply psection_reach. exact L2.
Qed.
Lemma pstart l p s : pplay (start c) l = Some (p, s) -> preach p s.
Proof. intros E. apply (pplay_reach l (start c) (p, s)); [constructor|exact E]. Qed.
End Drive.

(* lidar and IMU, with and without barometer, on three threads *)
Definition cfg_3 (ba : bool) : config := mkCfg true true false ba false None 5 3.
Definition script_3 (ba : bool) : list ins :=
  [Sen (IImu 90000 1)] ++ (if ba then [Sen (IBaro 95000 7)] else []) ++
  [Sen (ICloud 100 50000); Sen (IImu 125000 2); Sen (ICloud 200 50000); Sen (IImu 155000 3); Pol;
   Snd TInit 100000; Job TInit; Odo; Pol; Pol; Pol; Scn 1; RS; RS; Mp; RM; RM; Pol;
   Sen (IImu 190000 4); Sen (IImu 235000 5); Sen (ICloud 300 50000); Pol; Snd TImu 200000; Job TImu; RM; RM; RM; Sen (IImu 265000 6); Pol; Pol; Pol] ++
  (if ba then [Sen (IBaro 190000 8); Snd TBaro 100000; Job TBaro] else []) ++
  [Sen (IImu 290000 7); Sen (IImu 335000 8); Sen (ICloud 400 50000); Pol; Snd TImu 300000; Job TImu].
(* the same with stereo camera on four *)
Definition cfg_4 (ba : bool) : config := mkCfg true true true ba false None 5 4.
Definition script_4 (ba : bool) : list ins :=
  [Sen (IImu 90000 1)] ++ (if ba then [Sen (IBaro 95000 7)] else []) ++
  [Sen (ICloud 100 50000); Sen (IImu 125000 2); Sen (IStereo 130456); Sen (ICloud 200 50000); Pol; Sen (IImu 155000 3); Pol; Pol;
   Snd TInit 130000; Job TInit; Snd TStereo 130000; Job TStereo; Odo; Pol; Pol; Pol; Scn 1; RS; RS; Mp; RM; RM; Pol;
   Sen (IImu 185000 4)] ++ (if ba then [Sen (IBaro 190000 8); Snd TBaro 130000; Job TBaro] else []) ++
  [Sen (IStereo 350000); Sen (IImu 235000 5); Sen (ICloud 300 50000); Pol; Pol; Snd TImu 200000; Job TImu; RM; RM; RM; Sen (IImu 265000 6); Pol; Pol; Pol;
   Snd TStereo 200000; Job TStereo; Snd TStereo 350000; Job TStereo;
   Sen (IImu 295000 7); Sen (IImu 340000 8); Sen (ICloud 400 50000); Pol; Sen (IImu 355000 9); Pol; Pol; Snd TImu 350000; Job TImu].
Definition fe_of (st ba : bool) : fcfg := mkFcfg st false ba.
Definition cfg_of (st ba : bool) : config := if st then cfg_4 ba else cfg_3 ba.
Definition script_of (st ba : bool) : list ins := if st then script_4 ba else script_3 ba.
Lemma of_matching st ba : matching (fe_of st ba) (cfg_of st ba).
Proof. destruct st, ba; unfold matching; conj; reflexivity. Qed.

(* a state in which all threads are asleep, as a test *)
Definition loc_eqb (a b : loc) : bool := match a, b with LFirst, LFirst => true | LNext x i, LNext y j => (x =? y) && Bool.eqb i j | _, _ => false end.
Fixpoint reads (p : prog) (g : igm) (l : loc) : bool :=
  match p with PRet (OSleep x) => loc_eqb x l | PRead k => reads (k g) g l | _ => false end.
Lemma loc_eqb_ok a b : loc_eqb a b = true -> a = b.
Proof. destruct a, b; cbn; intros H; try discriminate; auto. apply andb_prop in H. destruct H as [H1 H2]. apply Z.eqb_eq in H1. apply Bool.eqb_prop in H2. congruence. Qed.
Lemma reads_ok : forall p g l log ev, reads p g l = true -> prun bp0 p g log ev = (g, log, ev, ROut (OSleep l)).
Proof. fix IH 1. intros [[|x|x|]| |op p|k|e p] g l log ev H; cbn in H; try discriminate; cbn [prun]; [apply loc_eqb_ok in H; congruence|apply IH; exact H]. Qed.
Section Test.
Variable fc : fcfg.
Variable c : config.
Definition dozeb (s : sys) (t : tid) : bool := match pget (y_ctl s) t with CIdle => true | CWant m l => reads (section c (y_ok s) m l) (y_g s) l | _ => false end.
Definition starvedb (s : loop) : bool :=
  Nat.leb (c_pool c) (pool_busy s) &&
  match f_pc (l_f s) with PBias _ _ _ => negb (f_bias (l_f s) =? f_pst (l_f s)) | _ => false end &&
  r_ok Z Z (l_r s) && match r_s Z Z (l_r s) with SIdle _ _ => true | _ => false end && match r_qc Z Z (l_r s) with [] => true | _ => false end &&
  match r_m Z Z (l_r s), r_own Z Z (l_r s) with MSleep _ _ _, None => true | _, _ => false end &&
  match y_mutex (l_b s) with None => true | _ => false end && forallb (dozeb (l_b s)) all_tids.
Lemma starvedb_ok s : starvedb s = true -> starved bp0 fc c s.
Proof.
  unfold starvedb. rewrite !andb_true_iff. intros (((((((H1 & H2) & H3) & H4) & H5) & H6) & H7) & H8). constructor.
  - apply Nat.leb_le. exact H1.
  - cbn [fe_step]. unfold cloud_poll. destruct (f_pc (l_f s)) eqn:Ep; try discriminate. destruct (f_prev (l_f s)) as [[]|]; [|reflexivity]. destruct (f_bias (l_f s) =? f_pst (l_f s)); [discriminate|reflexivity].
  - constructor; [exact H3|destruct (r_s Z Z (l_r s)); try discriminate; reflexivity|left; destruct (r_qc Z Z (l_r s)); [reflexivity|discriminate]|].
    destruct (r_m Z Z (l_r s)); try discriminate. destruct (r_own Z Z (l_r s)); [discriminate|]. eauto.
  - split; [destruct (y_mutex (l_b s)); [discriminate|reflexivity]|]. rewrite forallb_forall in H8. assert (A : forall t, In t all_tids) by (intros []; cbn; tauto). intros t. specialize (H8 t (A t)). unfold dozeb in H8.
    destruct (pget (y_ctl (l_b s)) t); try discriminate; auto. apply reads_ok. exact H8.
Qed.
End Test.

Definition sum (p : past) (s : loop) := (odoms (y_ev (l_b s)), cloud_stamps (l_f s), l_scn s, trans (y_ev (l_b s)), map stamp (on TStereo (h_b p))).
Lemma few_run st ba : match pplay (fe_of st ba) (cfg_of st ba) true (start (cfg_of st ba)) (script_of st ba) with
  | Some (p, s) => starvedb (cfg_of st ba) s = true /\
      sum p s = (if st then ([(0, 130000)], [130000; 200000], 1%nat, [130000; 200000], [130000; 200000; 350000]) else ([(0, 100000)], [100000; 200000], 1%nat, [100000; 200000], []))
  | None => False end.
Proof. destruct st, ba; vm_compute; split; reflexivity. Qed.

(* with one thread fewer than needed, the node can stop for ever: a cloud is published, its guess is known, and it is
   never registered *)
Theorem threads_exact st ba : exists p s, let fc := fe_of st ba in let c := cfg_of st ba in
  matching fc c /\ c_reg c = true /\ c_stereo c = st /\ c_baro c = ba /\ c_pool c = sleepers c /\
  preach bp0 al0 al1 fc c true p s /\ features_in c p s /\
  (exists g s', lstep bp0 al0 al1 fc c true s (LScan g) = Some (Ok s')) /\ (List.length (odoms (y_ev (l_b s))) < List.length (out_clouds (f_out (l_f s))))%nat /\
  forall p' s', plater bp0 al0 al1 fc c true p s p' s' ->
    l_f s' = l_f s /\ r_pub Z Z (l_r s') = r_pub Z Z (l_r s) /\ (forall e, In e (y_ev (l_b s')) -> In e (y_ev (l_b s))).
Proof.
  pose proof (few_run st ba) as X. destruct (pplay (fe_of st ba) (cfg_of st ba) true (start (cfg_of st ba)) (script_of st ba)) as [[p s]|] eqn:E; [|destruct X]. exists p, s. cbv zeta. apply pstart in E. destruct X as [X1 X2].
  pose proof (starvedb_ok (fe_of st ba) _ _ X1) as Sv. pose proof (pool_reach _ _ _ _ _ _ _ _ E) as R. unfold sum in X2.
  assert (X3 : List.length (odoms (y_ev (l_b s))) = 1%nat /\ List.length (cloud_stamps (l_f s)) = 2%nat) by (destruct st; injection X2 as -> -> _ _ _; auto). destruct X3 as [X3 X4]. unfold cloud_stamps in X4. rewrite map_length in X4.
  conj; try (destruct st, ba; reflexivity); auto using of_matching.
  - intros Hs t Ht. destruct st; [|destruct ba; discriminate Hs]. injection X2 as _ X2 _ _ X5. rewrite X2 in Ht.
    assert (I1 : In 350000 (map stamp (on TStereo (h_b p)))) by (rewrite X5; cbn; auto). apply in_map_iff in I1. destruct I1 as (m & E1 & I1). exists m. split; [exact I1|]. cbn in Ht. lia.
  - exists 0. assert (X5 : exists t, nth_error (cloud_stamps (l_f s)) (l_scn s) = Some t /\ In t (trans (y_ev (l_b s)))) by (destruct st; injection X2 as _ -> -> -> _; exists 200000; cbn; auto).
    destruct X5 as (t & X5 & X6). cbn [lstep]. rewrite X5. replace (existsb (Z.eqb t) (trans (y_ev (l_b s)))) with true by (symmetry; apply existsb_exists; exists t; split; [exact X6|apply Z.eqb_refl]).
    unfold with_r. pose proof (wt_s _ (sv_reg _ _ _ _ Sv)) as W. pose proof (wt_ok _ (sv_reg _ _ _ _ Sv)) as W2. destruct (l_r s) as [ok own qc qt pv sp mp pb]. cbn [r_s r_ok] in W, W2. subst. eexists. reflexivity.
  - lia.
  - intros p' s' L. destruct (starved_forever _ _ _ _ _ _ p s (of_matching st ba) R Sv p' s' L) as (Y1 & Y2 & _ & _ & Y3 & _). auto.
Qed.

(* four threads are enough without stereo camera: a run that comes to rest, all done *)
Definition cfg_rest : config := mkCfg true true false false false None 5 4.
Lemma rest_run : match pplay cfg_lidar cfg_rest true (start cfg_rest) script_reg with
  | Some (p, s) => (quietb bp0 cfg_rest (l_b s), List.length (odoms (y_ev (l_b s))), List.length (out_clouds (f_out (l_f s))), out_inits (f_out (l_f s)), f_pc (l_f s)) = (true, 2%nat, 2%nat, [100000], PIdle)
      /\ (l_odo s, l_scn s, l_map s, l_in s, List.length (r_pub Z Z (l_r s)), List.length (posted s TImu), r_s Z Z (l_r s), r_own Z Z (l_r s)) = (2%nat, 2%nat, 2%nat, mkPer 1%nat 1%nat 1%nat 0%nat 0%nat, 1%nat, 1%nat, SIdle Z Z, None)
      /\ (r_m Z Z (l_r s), r_qc Z Z (l_r s)) = (MSleep Z Z 200000, [])
  | None => False end.
Proof. vm_compute. auto. Qed.
Lemma rest_case : exists p s, matching cfg_lidar cfg_rest /\ (sleepers cfg_rest < c_pool cfg_rest)%nat /\ preach bp0 al0 al1 cfg_lidar cfg_rest true p s /\ pool_rest bp0 al0 al1 cfg_lidar cfg_rest true s /\ features_in cfg_rest p s /\
  out_inits (f_out (l_f s)) = [100000] /\ List.length (odoms (y_ev (l_b s))) = 2%nat /\ List.length (out_clouds (f_out (l_f s))) = 2%nat.
Proof.
  pose proof rest_run as X. destruct (pplay cfg_lidar cfg_rest true (start cfg_rest) script_reg) as [[p s]|] eqn:E; [|destruct X]. exists p, s. apply pstart in E. destruct X as (X1 & X2 & X3). injection X1 as X1 Lo Lc Li Lp. injection X2 as E1 E2 E3 E4 E5 E6 E7 E8. injection X3 as E9 E10.
  apply quietb_ok in X1. destruct X1 as (Q1 & Q2 & Q3).
  assert (LM : List.length (cloud_stamps (l_f s)) = 2%nat) by (unfold cloud_stamps; rewrite map_length; exact Lc).
  assert (S : forall a r, lstep bp0 al0 al1 cfg_lidar cfg_rest true s a = None -> pstep bp0 al0 al1 cfg_lidar cfg_rest true s a = Some r -> False) by (intros a r A B; apply pool_step in B; congruence).
  split; [unfold matching; conj; reflexivity|]. split; [repeat constructor|]. split; [exact E|]. split; [|split; [intros Hs; discriminate|auto]].
  - constructor; auto.
    + cbn [fe_step]. unfold cloud_poll. rewrite Lp. reflexivity.
    + intros t Ht Hn. rewrite E4. destruct t; cbn [pget p_i p_u p_r p_s p_b]; try congruence; try discriminate Ht; [cbn [posted]; rewrite Li; reflexivity|cbn [posted] in *; lia|cbn [posted]; rewrite map_length; lia].
    + intros a Ha Hs. destruct (pstep bp0 al0 al1 cfg_lidar cfg_rest true s a) as [r|] eqn:Ep; [exfalso|reflexivity]. apply (S a r); [|exact Ep]. destruct a as [i| | |m|g| |l|b]; try discriminate Ha; try contradiction; cbn [lstep].
      * replace (nth_error (odoms (y_ev (l_b s))) (l_odo s)) with (@None (Z * Z)); [reflexivity|]. symmetry. apply nth_error_None. lia.
      * replace (nth_error (cloud_stamps (l_f s)) (l_scn s)) with (@None Z); [reflexivity|]. symmetry. apply nth_error_None. lia.
      * replace (nth_error (cloud_stamps (l_f s)) (l_map s)) with (@None Z); [reflexivity|]. symmetry. apply nth_error_None. lia.
      * destruct b; try discriminate Ha. cbn [internalb]. rewrite Q2. reflexivity.
    + intros _. split; [exact E8|]. right. exists 200000. split; [right; exact E9|left; exact E10].
Qed.
(* hypotheses of imu_or_baro and starved_forever are met: a state with both sleeping cannot exist; one that is starved does *)
Lemma starved_case : exists p s, lreach bp0 al0 al1 (fe_of true true) (cfg_of true true) true p s /\ starved bp0 (fe_of true true) (cfg_of true true) s /\ asleep bp0 (cfg_of true true) s TImu /\ y_mutex (l_b s) = None.
Proof.
  pose proof (few_run true true) as X. destruct (pplay (fe_of true true) (cfg_of true true) true (start (cfg_of true true)) (script_of true true)) as [[p s]|] eqn:E; [|destruct X]. exists p, s.
  assert (Y : match pplay (fe_of true true) (cfg_of true true) true (start (cfg_of true true)) (script_of true true) with Some (_, s) => match pget (y_ctl (l_b s)) TImu with CWant _ _ => True | _ => False end | None => False end) by (vm_compute; exact I).
  rewrite E in Y. apply pstart in E. destruct X as [X _]. apply (starvedb_ok (fe_of true true)) in X. pose proof (sv_back _ _ _ _ X) as [D1 D2]. conj; auto; [eapply pool_reach; exact E|]. specialize (D2 TImu). destruct (pget (y_ctl (l_b s)) TImu) eqn:Ec; try contradiction. exists m, l, l. auto.
Qed.
(* without s2m/enabled: one local map is enough *)
Lemma lost_case : exists p s, preach bp0 al0 al1 cfg_lidar cfg_rest false p s /\ s2m_held (l_r s) = true.
Proof.
  assert (X : match pplay cfg_lidar cfg_rest false (start cfg_rest) (firstn 15 script_reg) with Some (_, s) => s2m_held (l_r s) = true | None => False end) by (vm_compute; reflexivity).
  destruct (pplay cfg_lidar cfg_rest false (start cfg_rest) (firstn 15 script_reg)) as [[p s]|] eqn:E; [|destruct X]. exists p, s. split; [eapply pstart; exact E|exact X].
Qed.
