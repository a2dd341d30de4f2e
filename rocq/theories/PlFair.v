(* With one thread more than callbacks that can wait at once, a thread becomes free again and again along every fair
   execution, and every cloud is registered and optimised. *)
From Coq Require Import List Lia Arith.
From Verif Require Import Base ImuModel ImuSpec ImuProofs FeModel FeSpec FeBaro FeProofs FeImu FeLive.
From Verif Require Import RegModel RegSpec RegProofs RegMore.
From Verif Require Import GmModel GmReady BeModel BeSpec BeProofs BeAbs BeInv BeSect BeHealthy BeLive BeFair BeFairMore LpModel LpSpec LpProofs LpInv LpLive LpFairSpec LpFair PlModel PlSpec PlProofs PlFairSpec.
Import ListNotations.
Local Open Scope Z_scope.

(* what can hold a thread *)
Inductive part := QF | QS | QM | QB (t : tid).
Definition holds (s : loop) (q : part) : bool :=
  match q with QF => fe_held (l_f s) | QS => s2s_held (l_r s) | QM => s2m_held (l_r s) | QB t => busy (pget (y_ctl (l_b s)) t) end.
Lemma pool_sum s : pool_busy s = (held (holds s QF) + (held (holds s (QB TInit)) + held (holds s (QB TImu)) + held (holds s (QB TReg)) + held (holds s (QB TStereo)) + held (holds s (QB TBaro))) + held (holds s QS) + held (holds s QM))%nat.
Proof. unfold pool_busy. rewrite workers_sum. reflexivity. Qed.
Lemma held_mono a b : (a = true -> b = true) -> (held a <= held b)%nat.
Proof. destruct a, b; cbn; intros H; try lia; discriminate (H eq_refl). Qed.
Lemma pool_mono s s' : (forall q, holds s' q = true -> holds s q = true) -> (pool_busy s' <= pool_busy s)%nat.
Proof.
  intros H. rewrite !pool_sum. pose proof (held_mono _ _ (H QF)). pose proof (held_mono _ _ (H QS)). pose proof (held_mono _ _ (H QM)). pose proof (held_mono _ _ (H (QB TInit))). pose proof (held_mono _ _ (H (QB TImu))).
  pose proof (held_mono _ _ (H (QB TReg))). pose proof (held_mono _ _ (H (QB TStereo))). pose proof (held_mono _ _ (H (QB TBaro))). lia.
Qed.
Lemma pool_lose s s' q : (forall q, holds s' q = true -> holds s q = true) -> holds s q = true -> holds s' q = false -> (pool_busy s' < pool_busy s)%nat.
Proof.
  intros H E1 E2. rewrite !pool_sum. pose proof (held_mono _ _ (H QF)). pose proof (held_mono _ _ (H QS)). pose proof (held_mono _ _ (H QM)). pose proof (held_mono _ _ (H (QB TInit))). pose proof (held_mono _ _ (H (QB TImu))).
  pose proof (held_mono _ _ (H (QB TReg))). pose proof (held_mono _ _ (H (QB TStereo))). pose proof (held_mono _ _ (H (QB TBaro))).
  assert (X : (held (holds s' q) < held (holds s q))%nat) by (rewrite E1, E2; cbn; lia). destruct q as [| | |[]]; lia.
Qed.

Section Pool.
Variable bp : Z -> Z -> Z -> Z -> Z.
Variable al_s al_m : Z -> Z -> Z -> Z.
Variable fc : fcfg.
Variable c : config.
Variable s2m : bool.
Notation lstep := (lstep bp al_s al_m fc c s2m).
Notation pstep := (pstep bp al_s al_m fc c s2m).
Notation lreach := (lreach bp al_s al_m fc c s2m).
Notation preach := (preach bp al_s al_m fc c s2m).
Notation rstep := (rstep Z Z al_s al_m s2m).

(* only a callback that begins takes a thread *)
Lemma quiet_step s a s' : PlModel.starts a = false -> lstep s a = Some (Ok s') -> forall q, holds s' q = true -> holds s q = true.
Proof.
  intros Hs E q. destruct a as [i| | |m|g| |l|a]; try discriminate Hs; cbn [LpModel.lstep] in E.
  - unfold with_f in E. destruct (fe_step fc (l_f s) IPoll) as [f| |] eqn:Ef; try discriminate. cbn in E. injection E as <-. destruct q; cbn [holds l_f l_r l_b]; auto. unfold fe_held. cbn [fe_step] in Ef. unfold cloud_poll in Ef.
    destruct (f_pc (l_f s)) eqn:Ep; auto. injection Ef as <-. rewrite Ep. auto.
  - destruct (next_on s m); [|discriminate]. destruct (sys_step bp c (l_b s) (ADeliver m)) eqn:Es; [|discriminate]. cbn in E. injection E as <-. destruct q; cbn [holds l_f l_r l_b]; auto.
    cbn in Es. destruct (subscribed c (msg_tid m)); [|discriminate]. injection Es as <-. auto.
  - destruct (works l) eqn:W; [|discriminate]. destruct (with_r_ok _ _ _ _ _ E) as (r & Er & Ef & Er' & Eb). unfold holds. rewrite Ef, Er', Eb. destruct q; auto; unfold s2s_held, s2m_held; destruct (l_r s) as [ok own qc qt pv sp mp pb]; destruct l; try discriminate W; cbn [RegModel.rstep r_s r_m] in *.
    + destruct sp; auto. discriminate.
    + destruct mp; try discriminate; try (injection Er as <-; cbn; auto).
      * destruct own; [discriminate|]. injection Er as <-. auto.
      * destruct (_ && _) in Er; injection Er as <-; auto.
      * destruct ok; injection Er as <-; auto.
      * destruct qc; [discriminate|]. injection Er as <-. auto.
      * destruct qt; [discriminate|]. injection Er as <-. auto.
    + destruct sp; try discriminate; try (injection Er as <-; cbn; auto).
      * destruct pv; [destruct s2m|]; injection Er as <-; auto.
      * destruct own; [discriminate|]. injection Er as <-. auto.
    + destruct mp; auto. discriminate.
  - destruct (internalb a); [|discriminate]. destruct (sys_step bp c (l_b s) a) as [b|] eqn:Es; [|discriminate]. cbn in E. injection E as <-. destruct q as [| | |t]; cbn [holds l_f l_r l_b]; auto.
    destruct a as [m|t'|t'|t'|]; try discriminate Hs; cbn [sys_step] in Es.
    + destruct (subscribed c (msg_tid m)); [|discriminate]. injection Es as <-. auto.
    + destruct (pget (y_ctl (l_b s)) t') eqn:Ec; try discriminate. destruct (y_mutex (l_b s)); [discriminate|]. injection Es as <-. cbn [y_ctl]. destruct (tid_dec t t') as [->|N]; [rewrite Ec; auto|rewrite pget_upd_ne by exact N; auto].
    + destruct (pget (y_ctl (l_b s)) t') eqn:Ec; try discriminate; injection Es as <-.
      * cbn [y_ctl]. destruct (tid_dec t t') as [->|N]; [rewrite Ec; auto|rewrite pget_upd_ne by exact N; auto].
      * destruct (tid_dec t t') as [->|N]; [rewrite Ec; auto|]. destruct (micro_other bp (l_b s) t' t m p N) as [-> _]. auto.
    + injection Es as <-. auto.
Qed.

(* the barometer waits for the IMU data of the last state at most *)
Lemma baro_waits p s d tau K u r st b cb fr cal m l l' : matching fc c -> linv bp al_s al_m fc c s2m p s d -> (forall n t, nth_error (announced (f_out (l_f s))) n = Some t -> tau (Z.of_nat n) = t) -> environment c tau ->
  binv c tau (h_b p) (l_b s) K u r st b cb fr cal -> pget (y_ctl (l_b s)) TBaro = CHold m l ->
  prun bp (section c (y_ok (l_b s)) m l) (y_g (l_b s)) (y_log (l_b s)) (y_ev (l_b s)) = (y_g (l_b s), y_log (l_b s), y_ev (l_b s), ROut (OSleep l')) -> 0 <= K -> u <= K.
Proof.
  intros Hm V A He B C2 E2 KP. pose proof He as (M & _).
  assert (P2 : pend (l_b s) TBaro = m :: pget (y_q (l_b s)) TBaro) by (unfold pend; rewrite C2; reflexivity).
  destruct (sleeps bp c tau _ _ _ _ _ _ _ _ _ _ TBaro m l l' He B P2 E2) as [[X _]|[[X _]|[_ Hc]]]; try discriminate X.
  pose proof (bi_rest _ _ _ _ _ _ _ _ _ _ _ _ B) as R. pose proof (bi_env _ _ _ _ _ _ _ _ _ _ _ _ B) as E. pose proof (rs_phase _ _ _ _ _ _ _ _ _ _ _ _ _ R) as PH.
  destruct (en_msg _ _ _ _ _ _ _ _ _ _ E TBaro m) as [Hm2 Ht2]; [rewrite P2; left; reflexivity|]. destruct m as [| | | |tt pr vp nz n]; try discriminate Ht2. cbn [msg_ok] in Hm2. destruct Hm2 as (-> & -> & Hn).
  destruct (en_bj _ _ _ _ _ _ _ _ _ _ E (MBaro tt pr true true n)) as (j & Hj & Ej); [rewrite P2; left; reflexivity|]. cbn [stamp] in Ej.
  assert (Hl : l = LFirst /\ cb = b \/ exists inner, l = LNext cb inner).
  { pose proof (bi_loc _ _ _ _ _ _ _ _ _ _ _ _ B) as X. rewrite C2 in X. cbn [loc_ok] in X. destruct l as [|x inner]; [left; auto|right; exists inner; congruence]. }
  rewrite (bi_ok _ _ _ _ _ _ _ _ _ _ _ _ B) in E2. cbn [section] in E2.
  pose proof (S_baro bp c tau _ _ _ _ _ _ _ _ _ _ _ l tt pr n j Hc M R Ej Hj Hn Hl) as W. unfold wp in W. rewrite E2 in W.
  destruct W as [(Hb1 & _)|[(_ & _ & X & _)|(_ & _ & X & _)]]; try discriminate X.
  destruct (en_baro _ _ _ _ _ _ _ _ _ _ E) as [_ [don Ed]]. rewrite P2 in Ed.
  destruct (baro_index bp al_s al_m fc c s2m p s d tau Hm V A tt) as (i & Ei & Li); [rewrite Ed; apply in_or_app; right; left; reflexivity|exact Hc|].
  assert (LK : List.length (odoms (y_ev (l_b s))) = Z.to_nat (K + 1)).
  { rewrite (ev_odoms _ _ _ _ (rs_ev _ _ _ _ _ _ _ _ _ _ _ _ _ R)), map_length. unfold zrange. rewrite map_length, seq_length. lia. }
  assert (KB : 0 <= b) by (destruct PH as [PH|PH]; [lia|]; rewrite Hc in PH; lia).
  assert (IJ : Z.of_nat i = j) by (apply (tau_inj tau); [exact M|lia|lia|congruence]).
  unfold nn in Hb1. destruct (Z.ltb_spec K 0); lia.
Qed.

Variable p : nat -> past.
Variable x : nat -> loop.
Variable acts : nat -> option lact.
Variable time : nat -> Z.
Hypothesis Hm : matching fc c.
Hypothesis Hex : pexecution bp al_s al_m fc c s2m p x acts.
Hypothesis Hfair : pfair bp al_s al_m fc c s2m p x acts.
Hypothesis Htime : timeline x time.
Hypothesis Hn : (sleepers c < c_pool c)%nat.

Lemma pool_execution : lexecution bp al_s al_m fc c s2m p x acts.
Proof.
  constructor; [apply pool_reach; apply (pe_start _ _ _ _ _ _ _ _ _ Hex)|]. intros n. pose proof (pe_step _ _ _ _ _ _ _ _ _ Hex n) as X. destruct (acts n) as [a|]; [|exact X].
  destruct X as (F & E & P). split; [exact F|]. split; [apply pool_step; exact E|exact P].
Qed.
Notation Lx := pool_execution.
Lemma ready_now g n a s' : does g (Some a) -> fine fc (p n) (x n) a -> lstep (x n) a = Some (Ok s') -> PlModel.starts a = false \/ (pool_busy (x n) < c_pool c)%nat -> pready bp al_s al_m fc c s2m g (p n) (x n).
Proof.
  intros D F E H. exists a, s'. split; [exact D|]. split; [exact F|]. unfold PlModel.pstep. destruct H as [-> |H]; [exact E|]. apply Nat.ltb_lt in H. rewrite H, andb_false_r. exact E.
Qed.

(* callbacks that have begun are scheduled *)
Lemma calls w : fair_to bp al_s al_m fc c s2m (GReg w) p x acts.
Proof.
  intros n H. apply (Hfair (GReg w) n). intros m L. destruct (H m L) as (m' & L' & [(a & s' & D & F & E)|D]); exists m'; (split; [exact L'|]); [left|right; exact D].
  apply (ready_now _ _ a s'); auto. left. destruct a as [i| | |m1|g| |l|a]; cbn [does] in D; try (destruct w; destruct D); reflexivity.
Qed.
Notation tau_ := (LpFair.tau time).
Notation hb n := (h_b (p n)).
Notation xb n := (l_b (x n)).
Notation Bx := (back_exec bp al_s al_m fc c s2m p x acts time Hm Lx Htime).
Notation He := (env_ok fc c time Hm).
Lemma back_runs : run_fair bp c (fun n => xb n) (bact acts).
Proof.
  intros t n Hb H. destruct (Hfair (GBack t) n) as (m & L & D); [|exists m; split; [exact L|]; apply does_back; exact D].
  intros m L. destruct (H m L) as (m' & L' & X). exists m'. split; [exact L'|].
  destruct (BeFair.still_or (bact acts) t n m') as [(j & Hj & Y)|St]; [right; exists j; split; [exact Hj|]; apply does_back; exact Y|].
  destruct X as [(a & b & Mv & E)|(j & Hj & Y)]; [|destruct (St j Hj Y)]. left.
  pose proof (BeFair.still_ctl bp c tau_ _ _ _ Bx t n m' ltac:(lia) St) as Ec. cbn beta in Ec.
  apply (ready_now _ _ (LBack a) (mkLoop (l_f (x m')) (l_r (x m')) b (l_in (x m')) (l_odo (x m')) (l_scn (x m')) (l_map (x m')))); [exact Mv|exact I| |].
  - cbn [LpModel.lstep]. assert (internalb a = true) as -> by (destruct a; try reflexivity; destruct Mv). rewrite E. reflexivity.
  - left. destruct a as [m0|t'|t'|t'|]; try reflexivity. exfalso. cbn [moves] in Mv. subst t'. cbn [sys_step] in E. rewrite Ec in E. destruct (pget (y_ctl (xb n)) t); try discriminate.
Qed.

(* ---- the pool full for a while ---- *)
Definition full n : Prop := (c_pool c <= pool_busy (x n))%nat.
Lemma full_step n : full n -> forall q, holds (x (S n)) q = true -> holds (x n) q = true.
Proof.
  intros Fu. pose proof (pe_step _ _ _ _ _ _ _ _ _ Hex n) as X. destruct (acts n) as [a|]; [|destruct X as [-> _]; auto]. destruct X as (_ & E & _).
  pose proof (pool_step _ _ _ _ _ _ _ _ _ E) as El. apply (quiet_step _ a _); [|exact El]. unfold PlModel.pstep in E. destruct (PlModel.starts a); [|reflexivity]. apply Nat.ltb_ge in Fu. rewrite Fu in E. discriminate.
Qed.
Lemma span n m : (n <= m)%nat -> (exists j, (n <= j <= m)%nat /\ ~ full j) \/ (full m /\ forall q, holds (x m) q = true -> holds (x n) q = true).
Proof.
  intros L. induction L as [|m L [(j & Hj & N)|[F IH]]].
  - destruct (le_dec (c_pool c) (pool_busy (x n))) as [F|F]; [right; auto|left; exists n; split; [lia|exact F]].
  - left. exists j. split; [lia|exact N].
  - destruct (le_dec (c_pool c) (pool_busy (x (S m)))) as [F'|F']; [right; split; [exact F'|]; intros q Hq; apply IH; eapply full_step; eauto|left; exists (S m); split; [lia|exact F']].
Qed.
(* fewer threads are taken later *)
Definition fewer n : Prop := exists m, (n <= m)%nat /\ (pool_busy (x m) < pool_busy (x n))%nat.
Lemma carry n m : full n -> (n <= m)%nat -> fewer n \/ (full m /\ (fewer m -> fewer n) /\ forall q, holds (x n) q = true -> holds (x m) q = true).
Proof.
  intros F L. destruct (span n m L) as [(j & Hj & N)|[F' H]]; [left; exists j; unfold full in *; split; lia|].
  assert (D : (pool_busy (x m) < pool_busy (x n))%nat \/ forall q, holds (x n) q = true -> holds (x m) q = true).
  { assert (One : forall q, (pool_busy (x m) < pool_busy (x n))%nat \/ (holds (x n) q = true -> holds (x m) q = true)).
    { intros q. destruct (holds (x n) q) eqn:E1; [|right; discriminate]. destruct (holds (x m) q) eqn:E2; [right; auto|]. left. eapply pool_lose; eauto. }
    destruct (One QF) as [|O1]; [auto|]. destruct (One QS) as [|O2]; [auto|]. destruct (One QM) as [|O3]; [auto|]. destruct (One (QB TInit)) as [|O4]; [auto|]. destruct (One (QB TImu)) as [|O5]; [auto|].
    destruct (One (QB TReg)) as [|O6]; [auto|]. destruct (One (QB TStereo)) as [|O7]; [auto|]. destruct (One (QB TBaro)) as [|O8]; [auto|]. right. intros [| | |[]]; assumption. }
  destruct D as [D|D]; [left; exists m; auto|]. right. split; [exact F'|]. split; [|exact D]. intros (k & Lk & K). exists k. pose proof (pool_mono _ _ H). split; lia.
Qed.
Lemma let_go n m q : full n -> (n <= m)%nat -> holds (x n) q = true -> holds (x m) q = false -> fewer n.
Proof. intros F L E1 E2. destruct (carry n m F L) as [X|(_ & _ & X)]; [exact X|]. specialize (X q E1). congruence. Qed.

Notation S_ n := (settle bp (xb n)).
Notation B := (BeFair.B c tau_ (fun n => hb n)).
Notation begins t n := (BeFair.starts (fun n => xb n) (bact acts) t n).

Definition going (pr p' : par) : Prop := pu p' = pu pr /\ pK pr <= pK p' /\ pst pr + pb pr <= pst p' + pb p'.
(* a section run while the pool is full *)
Lemma section_or n t pr : full n -> begins t n -> B n (S_ n) pr ->
  fewer n \/ exists p', B (S n) (S_ (S n)) p' /\ going pr p' /\ t <> TInit /\ t <> TReg /\ (t = TImu -> 0 <= pK pr /\ pK pr <> pu pr) /\ (t = TBaro -> 0 <= pK pr -> pu pr <= pK pr \/ pst pr + pb pr < pst p' + pb p').
Proof.
  intros F Bg HB. destruct (track bp c tau_ _ _ _ He Bx n pr HB) as [(NS & _)|(t' & m & l & p' & St & Eh & ES & Ec & HB' & EC & Adv)]; [destruct (NS t Bg)|].
  assert (t' = t) as -> by (destruct St as [Y _], Bg as [Z _]; rewrite Y in Z; congruence).
  cbn beta in *.
  assert (Hpd : pend (S_ n) t = m :: pget (y_q (S_ n)) t) by (unfold pend; rewrite <- ES, Ec; reflexivity).
  assert (HK : pK pr <= pK p').
  { destruct (K_step bp c tau_ _ _ _ He Bx n pr HB) as (p2 & B2 & K2). rewrite (B_K_unique c tau_ _ _ _ _ _ HB' B2). exact K2. }
  destruct (adv_pend _ _ _ _ _ _ _ _ _ _ _ Hpd Adv) as (Po & Pt & Hst & Hb).
  assert (Same : pend (S_ (S n)) t = pend (S_ n) t -> pu p' = pu pr).
  { intros Q. pose proof (B_keys c tau_ _ _ _ _ HB) as (U1 & _). pose proof (B_keys c tau_ _ _ _ _ HB') as (U2 & _). cbn beta in U1, U2. rewrite Eh in U2. destruct (tid_dec TImu t) as [<-|N]; [rewrite Q in U2; lia|rewrite (Po TImu N) in U2; lia]. }
  destruct Adv as [l' E E1 E2 EP|Fc Fq _ H1 H2|l' Fc Fq _ H1 H2 H3 H4].
  - right. exists p'. assert (Q : pend (S_ (S n)) t = pend (S_ n) t) by (rewrite E; unfold pend at 1; cbn [y_ctl y_q]; rewrite pget_upd_eq; cbn [ctl_msgs app]; symmetry; exact Hpd).
    split; [exact HB'|]. split; [split; [apply Same; exact Q|lia]|].
    pose proof (sleeps bp c tau_ _ _ _ _ _ _ _ _ _ _ t m l l' He HB Hpd EP) as Sl.
    split; [intros ->; destruct Sl as [[X _]|[[X _]|[X _]]]; discriminate|]. split; [intros ->; destruct Sl as [[X _]|[[X _]|[X _]]]; discriminate|]. split.
    { intros ->. destruct Sl as [[_ X]|[[X _]|[X _]]]; [|discriminate|discriminate]. split; [|exact X]. destruct (Z.lt_ge_cases (pK pr) 0) as [KN|]; [exfalso|assumption].
      pose proof (B_phase c tau_ _ _ _ _ HB) as [PH|PH]; [|lia]. pose proof (en_imu_bd _ _ _ _ _ _ _ _ _ _ (bi_env _ _ _ _ _ _ _ _ _ _ _ _ HB)) as [U1 U2].
      destruct (B_keys c tau_ _ _ _ _ HB) as (UK & _). cbn beta in UK. assert (U : len (on TImu (hb n)) = 0) by (destruct (Z.eq_dec (len (on TImu (hb n))) 0); [assumption|lia]).
      rewrite Hpd in UK. unfold len in UK, U. cbn [List.length] in UK. lia. }
    intros -> KP. left. destruct (inv bp al_s al_m fc c s2m p x acts Hm Lx n) as [d V]. unfold BeFair.B in HB. rewrite <- ES in HB, EP.
    eapply (baro_waits (p n) (x n) d tau_); [exact Hm|exact V|exact (tau_at bp al_s al_m fc c s2m p x acts time Hm Lx Htime n)|exact He|exact HB|exact Ec|exact EP|exact KP].
  - left. assert (Er : exists q, pget (y_ctl (xb (S n))) t = CRun m q).
    { pose proof (ex_step _ _ _ _ _ _ Bx n) as X. destruct St as [Ea _]. rewrite Ea in X. destruct X as (_ & X & _). cbn in X. rewrite Ec in X. injection X as X. eexists. rewrite <- X. cbn [y_ctl]. apply pget_upd_eq. }
    destruct Er as [q Er]. destruct (run_out bp c tau_ _ _ _ He Bx back_runs t m q (S n) p' Er HB') as (n' & L & _ & _ & Ei & _). cbn beta in Ei.
    apply (let_go n n' (QB t) F ltac:(lia)); cbn [holds]; [rewrite Ec; reflexivity|]. rewrite Ei, Fc, pget_upd_eq. reflexivity.
  - right. exists p'. assert (Q : pend (S_ (S n)) t = pend (S_ n) t) by (unfold pend; rewrite Fc, Fq, pget_upd_eq; symmetry; exact Hpd).
    split; [exact HB'|]. split; [split; [apply Same; exact Q|lia]|]. split; [intros ->; destruct H4 as [[X _]|X]; discriminate|]. split; [intros ->; destruct H4 as [[X _]|X]; discriminate|]. split; [intros ->; destruct H4 as [[X _]|X]; discriminate|]. intros _ _. right. exact H3.
Qed.
Lemma going_refl pr : going pr pr. Proof. unfold going. lia. Qed.
Lemma going_trans a b d : going a b -> going b d -> going a d. Proof. unfold going. lia. Qed.
Lemma go_step n pr : full n -> B n (S_ n) pr -> fewer n \/ exists p', B (S n) (S_ (S n)) p' /\ going pr p'.
Proof.
  intros F HB. destruct (track bp c tau_ _ _ _ He Bx n pr HB) as [(_ & X & _)|(t & m & l & p' & St & _)]; [right; exists pr; split; [exact X|apply going_refl]|].
  destruct (section_or n t pr F St HB) as [X|(p2 & B2 & G & _)]; [auto|]. right. exists p2. auto.
Qed.
Lemma go_on n m pr : full n -> (n <= m)%nat -> B n (S_ n) pr -> fewer n \/ exists p', B m (S_ m) p' /\ going pr p' /\ full m /\ (fewer m -> fewer n) /\ forall q, holds (x n) q = true -> holds (x m) q = true.
Proof.
  intros F L HB. assert (X : fewer n \/ exists p', B m (S_ m) p' /\ going pr p').
  { induction L as [|m L IH]; [right; exists pr; split; [exact HB|apply going_refl]|]. destruct IH as [X|(p1 & B1 & G1)]; [auto|].
    destruct (carry n m F L) as [X|(F' & R & _)]; [auto|]. destruct (go_step m p1 F' B1) as [X|(p2 & B2 & G2)]; [auto|]. right. exists p2. split; [exact B2|]. eapply going_trans; eauto. }
  destruct X as [X|(p' & B' & G)]; [auto|]. destruct (carry n m F L) as [X|(F' & R & H)]; [auto|]. right. exists p'. auto.
Qed.
(* a callback of the back end that has begun gets its section *)
Lemma turn t n pr : full n -> B n (S_ n) pr -> holds (x n) (QB t) = true ->
  fewer n \/ exists m p1 p2, (n <= m)%nat /\ B m (S_ m) p1 /\ going pr p1 /\ full (S m) /\ (fewer (S m) -> fewer n) /\ (forall q, holds (x n) q = true -> holds (x (S m)) q = true) /\
     B (S m) (S_ (S m)) p2 /\ going p1 p2 /\ t <> TInit /\ t <> TReg /\ (t = TImu -> 0 <= pK p1 /\ pK p1 <> pu p1) /\ (t = TBaro -> 0 <= pK p1 -> pu p1 <= pK p1 \/ pst p1 + pb p1 < pst p2 + pb p2).
Proof.
  intros F HB Hb. destruct (busy_served bp c tau_ _ _ _ He Bx back_runs t n pr HB Hb) as [(m & L & Bg)|(m & L & Ei)].
  2:{ left. apply (let_go n m (QB t) F L Hb). cbn [holds]. rewrite Ei. reflexivity. }
  destruct (go_on n m pr F L HB) as [X|(p1 & B1 & G1 & F1 & R1 & H1)]; [auto|].
  destruct (section_or m t p1 F1 Bg B1) as [X|(p2 & B2 & G2 & C1 & C2 & C3 & C4)]; [auto|].
  destruct (carry m (S m) F1 ltac:(lia)) as [X|(F2 & R2 & H2)]; [auto|]. right. exists m, p1, p2. split; [exact L|]. split; [exact B1|]. split; [exact G1|]. split; [exact F2|]. split; [auto|]. split; [auto|]. auto 10.
Qed.
Lemma imu_baro : forall N n pr, B n (S_ n) pr -> 2 * pu pr + 2 - pst pr - pb pr <= Z.of_nat N -> full n -> holds (x n) (QB TImu) = true -> holds (x n) (QB TBaro) = true -> fewer n.
Proof.
  induction N as [|N IH]; intros n pr HB Hle F Hi Hb.
  { exfalso. pose proof (B_phase c tau_ _ _ _ _ HB) as [PH|PH]; [lia|]. destruct (c_stereo c), (c_baro c); lia. }
  destruct (turn TImu n pr F HB Hi) as [X|(m0 & p0 & p1' & L0 & B0 & G0 & F0 & R0 & H0 & B0' & G0' & _ & _ & C0 & _)]; [exact X|]. destruct (C0 eq_refl) as [K0 _].
  apply R0. apply H0 in Hi. apply H0 in Hb.
  destruct (turn TBaro (S m0) p1' F0 B0' Hb) as [X|(m & p1 & p2 & L & B1 & G1 & F2 & R2 & H2 & B2 & G2 & _ & _ & _ & C4)]; [exact X|].
  assert (KP : 0 <= pK p1) by (unfold going in *; lia).
  specialize (C4 eq_refl KP). destruct C4 as [C4|C4].
  - destruct (turn TImu (S m) p2 F2 B2 (H2 _ Hi)) as [X|(m' & p3 & p4 & L' & B3 & G3 & _ & _ & _ & _ & _ & _ & _ & C3 & _)]; [auto|]. destruct (C3 eq_refl) as [_ C3'].
      exfalso. pose proof (B_phase c tau_ _ _ _ _ B3) as PH. unfold going in *. destruct PH as [PH|PH]; lia.
  - apply R2. apply (IH (S m) p2 B2); [unfold going in *; lia|exact F2|apply H2; exact Hi|apply H2; exact Hb].
Qed.

(* ---- a full pool does not stay full ---- *)
Lemma start_B n : exists pr, B n (S_ n) pr.
Proof. apply (xB bp c tau_ _ _ _ He Bx). Qed.
Lemma gives_way n : full n -> fewer n.
Proof.
  intros F. destruct (start_B n) as [pr HB].
  destruct (holds (x n) QS) eqn:Es.
  { destruct (s_idle bp al_s al_m fc c s2m p x acts Hm Lx calls n) as (m & L & Ei). apply (let_go n m QS F L Es). cbn [holds]. unfold s2s_held. rewrite Ei. reflexivity. }
  destruct (holds (x n) (QB TInit)) eqn:E1.
  { destruct (turn TInit n pr F HB E1) as [X|(m & p1 & p2 & _ & _ & _ & _ & _ & _ & _ & _ & X & _)]; [exact X|congruence]. }
  destruct (holds (x n) (QB TReg)) eqn:E2.
  { destruct (turn TReg n pr F HB E2) as [X|(m & p1 & p2 & _ & _ & _ & _ & _ & _ & _ & _ & _ & X & _)]; [exact X|congruence]. }
  pose proof (pool_sum (x n)) as Sm. rewrite Es, E1, E2 in Sm. cbn [held] in Sm.
  assert (X1 : (held (holds (x n) (QB TStereo)) <= held (c_stereo c))%nat).
  { destruct (c_stereo c) eqn:E; [destruct (holds (x n) (QB TStereo)); cbn; lia|].
    pose proof (unsubscribed bp al_s al_m fc c s2m (p n) (x n) TStereo Hm (reach bp al_s al_m fc c s2m p x acts Lx n) E) as X. cbn [holds]. rewrite X. cbn. lia. }
  assert (X2 : (held (holds (x n) QF) <= 1)%nat) by (destruct (holds (x n) QF); cbn; lia).
  assert (X3 : (held (holds (x n) QM) <= 1)%nat) by (destruct (holds (x n) QM); cbn; lia).
  unfold full in F. unfold sleepers in Hn. destruct (holds (x n) (QB TImu)) eqn:E3, (holds (x n) (QB TBaro)) eqn:E4; cbn [held] in Sm; try lia.
  apply (imu_baro (Z.to_nat (2 * pu pr + 2 - pst pr - pb pr)) n pr HB); auto. lia.
Qed.
(* again and again a thread is free *)
Theorem pool_frees n : exists m, (n <= m)%nat /\ (pool_busy (x m) < c_pool c)%nat.
Proof.
  remember (pool_busy (x n)) as k eqn:Ek. revert n Ek. induction k as [k IH] using lt_wf_ind. intros n Ek. destruct (le_dec (c_pool c) (pool_busy (x n))) as [F|F]; [|exists n; split; lia].
  destruct (gives_way n F) as (m & L & D). destruct (IH (pool_busy (x m)) ltac:(lia) m eq_refl) as (m' & L' & Y). exists m'. split; [lia|exact Y].
Qed.

(* ---- what could begin with a thread still can when one is free ---- *)
Notation Rg := (reg_moves al_s al_m s2m x acts).
Lemma s_keeps n : ~ does GScan (acts n) -> r_s Z Z (l_r (x n)) = SIdle Z Z -> r_s Z Z (l_r (x (S n))) = SIdle Z Z.
Proof.
  intros D E. destruct (instant bp al_s al_m fc c s2m p x acts Lx n) as (_ & _ & _ & _ & R). unfold reg_moves in R. destruct (acts n) as [[i| | |m|g| |l|a]|]; try (rewrite R; exact E); [destruct (D I)| |].
  - destruct R as [t R]. destruct (l_r (x n)) as [ok own qc qt pv s m pb]. cbn in E. subst s. cbn in R. destruct m; try discriminate. injection R as <-. reflexivity.
  - destruct R as [W R]. destruct (l_r (x n)) as [ok own qc qt pv s m pb]. cbn in E. subst s. destruct l; try discriminate W; cbn in R; [discriminate|].
    destruct m; try discriminate; try (injection R as <-; reflexivity).
    + destruct own; [discriminate|]. injection R as <-. reflexivity.
    + destruct (_ && _) in R; injection R as <-; reflexivity.
    + destruct ok; injection R as <-; reflexivity.
    + destruct qc; [discriminate|]. injection R as <-. reflexivity.
    + destruct qt; [discriminate|]. injection R as <-. reflexivity.
Qed.
Lemma m_keeps n : ~ does GMap (acts n) -> r_m Z Z (l_r (x n)) = MIdle Z Z -> r_m Z Z (l_r (x (S n))) = MIdle Z Z.
Proof.
  intros D E. destruct (instant bp al_s al_m fc c s2m p x acts Lx n) as (_ & _ & _ & _ & R). unfold reg_moves in R. destruct (acts n) as [[i| | |m|g| |l|a]|]; try (rewrite R; exact E); [|destruct (D I)|].
  - destruct R as [t R]. destruct (l_r (x n)) as [ok own qc qt pv s m pb]. cbn in E. subst m. cbn in R. destruct s; try discriminate. injection R as <-. reflexivity.
  - destruct R as [W R]. destruct (l_r (x n)) as [ok own qc qt pv s m pb]. cbn in E. subst m. destruct l; try discriminate W; cbn in R; [|discriminate].
    destruct s; try discriminate; try (injection R as <-; reflexivity).
    + destruct pv; [destruct s2m|]; injection R as <-; reflexivity.
    + destruct own; [discriminate|]. injection R as <-. reflexivity.
Qed.
Lemma keeps (P : nat -> Prop) g n m : (forall k, ~ does g (acts k) -> P k -> P (S k)) -> (n <= m)%nat -> still acts g n m -> P n -> P m.
Proof. intros H L. induction L as [|m L IH]; intros St Pn; [exact Pn|]. apply H; [apply St; lia|]. apply IH; [|exact Pn]. intros j Hj. apply St. lia. Qed.
Lemma stays g n m a s' : does g (Some a) -> PlModel.starts a = true -> fine fc (p n) (x n) a -> lstep (x n) a = Some (Ok s') -> (n <= m)%nat -> still acts g n m -> (pool_busy (x m) < c_pool c)%nat ->
  ready bp al_s al_m fc c s2m g (p m) (x m).
Proof.
  intros D Sa F E L St Fr. pose proof (instant bp al_s al_m fc c s2m p x acts Lx) as Ins. destruct g; destruct a as [i| | |m0|gs| |l|a]; try (cbn [does] in D; destruct D; fail); try discriminate Sa.
  - cbn [LpModel.lstep] in E. destruct (nth_error (odoms (y_ev (xb n))) (l_odo (x n))) as [y|] eqn:En; [|discriminate].
    pose proof (bump_still x acts GOdom l_odo (fun k => proj1 (Ins k)) n m L St) as El.
    destruct (odos_grow bp al_s al_m fc c s2m p x acts Lx n m L) as [o Eo]. unfold odos in Eo. apply (nth_keep _ o) in En. rewrite <- Eo, <- El in En.
    apply (readiness' bp al_s al_m fc c s2m p x acts Hm Lx GOdom m LOdom I I). cbn [LpModel.lstep]. rewrite En. destruct y as [k t]. unfold with_f. discriminate.
  - cbn [does] in D. destruct D as [D1 D2]. destruct m0; try discriminate Sa. cbn in D1. congruence.
  - cbn [LpModel.lstep] in E. destruct (nth_error (cloud_stamps (l_f (x n))) (l_scn (x n))) as [t|] eqn:En; [|discriminate]. destruct (existsb _ _) eqn:Ex in E; [|discriminate].
    assert (Ei : r_s Z Z (l_r (x n)) = SIdle Z Z). { destruct (l_r (x n)) as [ok own qc qt pv s mm pb]. cbn in E. destruct s; try discriminate. reflexivity. }
    pose proof (bump_still x acts GScan l_scn (fun k => proj1 (proj2 (Ins k))) n m L St) as El. destruct (clouds_grow bp al_s al_m fc c s2m p x acts Lx n m L) as [o Eo]. unfold clouds in Eo.
    apply (nth_keep _ o) in En. rewrite <- Eo, <- El in En. apply existsb_exists in Ex. destruct Ex as (t' & Ht' & Et'). apply Z.eqb_eq in Et'. subst t'.
    assert (Ex' : existsb (Z.eqb t) (trans (y_ev (xb m))) = true) by (apply existsb_exists; exists t; split; [apply (trans_grow bp al_s al_m fc c s2m p x acts Lx n m); assumption|apply Z.eqb_refl]).
    pose proof (keeps (fun k => r_s Z Z (l_r (x k)) = SIdle Z Z) GScan n m s_keeps L St Ei) as Ei'. cbn beta in Ei'.
    apply (readiness' bp al_s al_m fc c s2m p x acts Hm Lx GScan m (LScan gs) I I). cbn [LpModel.lstep]. rewrite En, Ex'. unfold with_r. destruct (l_r (x m)) as [ok own qc qt pv s k0 pb]. cbn in Ei'. subst s. cbn. discriminate.
  - cbn [LpModel.lstep] in E. destruct (nth_error (cloud_stamps (l_f (x n))) (l_map (x n))) as [t|] eqn:En; [|discriminate]. destruct (nth_error (odoms (y_ev (xb n))) (l_map (x n))) as [y|] eqn:En2; [|discriminate].
    assert (Ei : r_m Z Z (l_r (x n)) = MIdle Z Z). { destruct (l_r (x n)) as [ok own qc qt pv s mm pb]. cbn in E. destruct mm; try discriminate. reflexivity. }
    pose proof (bump_still x acts GMap l_map (fun k => proj1 (proj2 (proj2 (Ins k)))) n m L St) as El. destruct (clouds_grow bp al_s al_m fc c s2m p x acts Lx n m L) as [o Eo]. unfold clouds in Eo.
    apply (nth_keep _ o) in En. rewrite <- Eo, <- El in En. destruct (odos_grow bp al_s al_m fc c s2m p x acts Lx n m L) as [o2 Eo2]. unfold odos in Eo2. apply (nth_keep _ o2) in En2. rewrite <- Eo2, <- El in En2.
    pose proof (keeps (fun k => r_m Z Z (l_r (x k)) = MIdle Z Z) GMap n m m_keeps L St Ei) as Ei'. cbn beta in Ei'.
    apply (readiness' bp al_s al_m fc c s2m p x acts Hm Lx GMap m LMap I I). cbn [LpModel.lstep]. rewrite En, En2. unfold with_r. destruct (l_r (x m)) as [ok own qc qt pv s k0 pb]. cbn in Ei'. subst k0. cbn. discriminate.
  - destruct w; destruct D.
  - destruct w; destruct D.
  - destruct w; destruct D.
  - destruct w; destruct D.
  - destruct w; destruct D.
  - destruct w; destruct D.
  - destruct a as [m1|t'|t'|t'|]; try discriminate Sa. cbn [does moves] in D. subst t'. cbn [LpModel.lstep internalb sys_step] in E.
    destruct (pget (y_ctl (xb n)) t) eqn:Ec; try discriminate. destruct (pget (y_q (xb n)) t) as [|m1 q] eqn:Eq; [discriminate|].
    assert (Stb : BeFair.still (bact acts) t n m). { intros j Hj Y. apply (St j Hj). apply does_back. exact Y. }
    pose proof (BeFair.still_ctl bp c tau_ _ _ _ Bx t n m L Stb) as Ec'. destruct (BeFair.still_q bp c tau_ _ _ _ Bx t n m L Stb) as [e Eq']. cbn beta in Ec', Eq'. rewrite Ec in Ec'. rewrite Eq in Eq'.
    apply (readiness' bp al_s al_m fc c s2m p x acts Hm Lx (GBack t) m (LBack (ADispatch t)) eq_refl I). cbn [LpModel.lstep internalb sys_step]. rewrite Ec', Eq'. cbn [app].
    assert (Wf : worker_free c (xb m) = true). { unfold worker_free. apply Nat.ltb_lt. unfold pool_busy in Fr. lia. } rewrite Wf. cbn. discriminate.
Qed.
(* so the pipeline is scheduled fairly *)
Theorem pool_fair : lfair bp al_s al_m fc c s2m p x acts.
Proof.
  intros g n H. apply (Hfair g n). intros m L. destruct (H m L) as (m' & L' & [(a & s' & D & F & E)|D]); [|exists m'; auto].
  destruct (PlModel.starts a) eqn:Sa; [|exists m'; split; [exact L'|]; left; eapply ready_now; eauto].
  destruct (pool_frees m') as (m2 & L2 & Fr). exists m2. split; [lia|]. destruct (still_or acts g m' m2) as [(j & Hj & Dj)|St]; [right; exists j; split; [lia|exact Dj]|].
  left. destruct (stays g m' m2 a s' D Sa F E L2 St Fr) as (a2 & s2 & D2 & F2 & E2). eapply ready_now; eauto.
Qed.

Hypothesis Hreg : c_reg c = true.
Hypothesis Hft : features_follow c p x.
Notation on f := (f bp al_s al_m fc c s2m p x acts time Hm Lx pool_fair Htime Hreg (sleepers_workers c Hn) Hft).
Theorem pool_odometry_returns n i t : nth_error (cloud_stamps (l_f (x n))) i = Some t -> Z.of_nat i < int_max -> exists m, (n <= m)%nat /\ In (IOdom t) (h_f (p m)).
Proof. exact (on fair_odometry_returns n i t). Qed.
Theorem pool_transform_published n i t : nth_error (cloud_stamps (l_f (x n))) i = Some t -> Z.of_nat i < int_max -> exists m, (n <= m)%nat /\ In t (trans (y_ev (l_b (x m)))).
Proof. exact (on fair_transform_published n i t). Qed.
Theorem pool_cloud_registered n i t : nth_error (cloud_stamps (l_f (x n))) (S i) = Some t -> Z.of_nat (S i) < int_max -> exists m, (n <= m)%nat /\ nth_error (map fst (r_pub Z Z (l_r (x m)))) i = Some t.
Proof. exact (on fair_cloud_registered n i t). Qed.
Theorem pool_callback_returns : polled acts -> imu_follows p -> images_follow fc p -> forall n, Z.of_nat (List.length (out_clouds (f_out (l_f (x n))))) <= int_max ->
  exists m, (n <= m)%nat /\ f_pc (l_f (x m)) = PIdle /\ List.length (out_clouds (f_out (l_f (x m)))) = (List.length (out_clouds (f_out (l_f (x n)))) + match f_pc (l_f (x n)) with PIdle | PBaro _ _ _ => 0 | _ => 1 end)%nat.
Proof. exact (on fair_callback_returns). Qed.
End Pool.
