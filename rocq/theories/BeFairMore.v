(* More progress along fair executions of the back end: the initial odometry is handled, transforms are published. *)
From Verif Require Import Base GmModel GmSpec GmInv GmProofs GmFactors GmValues GmHist GmKeys GmStereo GmIds GmReady.
From Verif Require Import BeModel BeSpec BeProofs BeEff BeAbs BeInv BeSect BeHealthy BeLive BeFair.

Section More.
Variable bp : Z -> Z -> Z -> Z -> Z.
Variable c : config.
Variable tau : Z -> Z.
Variable x : nat -> sys.
Variable acts : nat -> option act.
Variable h : nat -> list msg.
Hypothesis He : environment c tau.
Hypothesis Hex : execution bp c tau x acts h.
Hypothesis Hfair : strongly_fair bp c x acts.
Hypothesis Hpool : enough_workers c.
Let Hrun := strongly_run bp c x acts Hfair.

Notation S_ n := (settle bp (x n)).
Notation B := (B c tau h).

(* what a section leaves behind *)
Lemma section_effect n p : B n (S_ n) p -> exists p', B (S n) (S_ (S n)) p' /\ pK p <= pK p' /\ pu p <= pu p' /\
  (forall t, starts x acts t n -> (t = TInit -> 0 <= pK p') /\ (t = TImu -> pK p = pu p -> pu p' = pu p + 1)).
Proof.
  intros HB. destruct (K_step bp c tau x acts h He Hex n p HB) as (p2 & B2 & K2).
  destruct (track bp c tau x acts h He Hex n p HB) as [(NS & HB' & _)|(t & m & l & p' & St & Eh & ES & Ec & HB' & EC & Adv)].
  - exists p. conj; auto; try lia. intros t Ht. destruct (NS t Ht).
  - exists p'. split; [exact HB'|]. split; [rewrite (B_K_unique c tau h _ _ _ _ HB' B2); exact K2|].
    assert (Hpd : pend (S_ n) t = m :: pget (y_q (S_ n)) t) by (unfold pend; rewrite <- ES, Ec; reflexivity).
    destruct (adv_pend _ _ _ _ _ _ _ _ _ _ _ Hpd Adv) as (Po & Pt & _ & _).
    pose proof (B_keys c tau h _ _ _ HB) as (U1 & _). pose proof (B_keys c tau h _ _ _ HB') as (U2 & _). rewrite Eh in U2.
    split. { destruct (tid_dec t TImu) as [->|N]; [destruct Pt as [Q|Q]; rewrite Q in *; [|rewrite len_cons in U1]; lia|rewrite (Po TImu) in U2 by congruence; lia]. }
    intros t' [Ea' _]. destruct St as [Ea _]. rewrite Ea in Ea'. injection Ea' as <-.
    assert (Out : (t = TInit \/ (t = TImu /\ pK p = pu p)) -> pend (S_ n) t = m :: pend (S_ (S n)) t).
    { intros D. destruct Adv as [l0 _ _ _ EP|Fc Fq _ _ _|l0 _ _ _ _ _ _ Z].
      - destruct (sleeps bp c tau _ _ _ _ _ _ _ _ _ _ _ _ _ _ He HB Hpd EP) as [[-> Z]|[(-> & _ & Z)|[-> _]]]; destruct D as [D|[D D']]; congruence.
      - rewrite Hpd. unfold pend. rewrite Fc, Fq, pget_upd_eq. reflexivity.
      - destruct D as [->|[-> _]]; destruct Z as [[Z _]|Z]; discriminate. }
    split.
    + intros ->. specialize (Out (or_introl eq_refl)).
      pose proof (en_init _ _ _ _ _ _ _ _ _ _ (bi_env _ _ _ _ _ _ _ _ _ _ _ _ HB)) as [I1 I1']. pose proof (en_init _ _ _ _ _ _ _ _ _ _ (bi_env _ _ _ _ _ _ _ _ _ _ _ _ HB')) as [I2 _].
      rewrite Eh in I2. rewrite Out, len_cons in I1. pose proof (len_nonneg (pend (S_ (S n)) TInit)). destruct (Z.ltb_spec (pK p') 0), (Z.ltb_spec (pK p) 0); lia.
    + intros -> EK. specialize (Out (or_intror (conj eq_refl EK))). rewrite Out, len_cons in U1. lia.
Qed.
Lemma keys_later n m p : (n <= m)%nat -> B n (S_ n) p -> exists p', B m (S_ m) p' /\ pK p <= pK p' /\ pu p <= pu p'.
Proof.
  intros L HB. induction L as [|m L (p1 & B1 & K1 & U1)]; [exists p; conj; auto; lia|].
  destruct (section_effect m p1 B1) as (p2 & B2 & K2 & U2 & _). exists p2. conj; auto; lia.
Qed.
Lemma hist_later n m : (n <= m)%nat -> exists e, h m = h n ++ e.
Proof.
  induction 1 as [|m L [e IH]]; [exists []; rewrite app_nil_r; reflexivity|].
  pose proof (ex_step _ _ _ _ _ _ Hex m) as X. destruct (acts m) as [[m0|t'|t'|t'|]|]; try (destruct X as (_ & _ & ->)); try (destruct X as (_ & ->)); eauto.
  rewrite IH, <- app_assoc. eauto.
Qed.

Lemma init_reached n : on TInit (h n) <> [] -> exists m p, (n <= m)%nat /\ B m (S_ m) p /\ 0 <= pK p.
Proof.
  intros Hi. destruct (xB bp c tau x acts h He Hex n) as [p HB]. destruct (Z.le_gt_cases 0 (pK p)) as [L|L]; [exists n, p; auto|].
  assert (Hp : pend (S_ n) TInit <> []).
  { pose proof (en_init _ _ _ _ _ _ _ _ _ _ (bi_env _ _ _ _ _ _ _ _ _ _ _ _ HB)) as [I1 _]. replace (pK p <? 0) with true in I1 by lia.
    intros Z. rewrite Z in I1. destruct (on TInit (h n)); [congruence|]. rewrite len_cons in I1. pose proof (len_nonneg l). change (len []) with 0 in I1. lia. }
  destruct (served bp c tau x acts h He Hex Hrun Hfair Hpool TInit n p HB Hp) as (m & Lm & St). destruct (xB bp c tau x acts h He Hex m) as [p1 B1].
  destruct (section_effect m p1 B1) as (p2 & B2 & _ & _ & X). exists (S m), p2. conj; auto. apply (X TInit St). reflexivity.
Qed.

(* the odometry of state 0 *)
Lemma fair_init n : on TInit (h n) <> [] -> exists m, (n <= m)%nat /\ y_mutex (x m) = None /\ In 0 (opts (y_log (x m))).
Proof.
  intros Hi. destruct (init_reached n Hi) as (m & p & L & HB & HK). destruct (freed' bp c tau x acts h He Hex Hrun m) as (m2 & L2 & Hm).
  destruct (keys_later m m2 p L2 HB) as (p2 & B2 & K2 & _). exists m2. conj; auto; try lia. rewrite (settle_none bp _ Hm) in B2. pose proof (B_keys c tau h _ _ _ B2) as (_ & _ & O). rewrite O. apply in_zrange. lia.
Qed.

(* once the odometry of a state is out and the IMU data of the next are in, the transform of the next is published *)
Lemma fair_transform n k : In (k - 1) (opts (y_log (x n))) -> 1 <= k <= len (on TImu (h n)) -> exists m, (n <= m)%nat /\ y_mutex (x m) = None /\ In (tau k) (trans (y_ev (x m))).
Proof.
  intros Ho Hk.
  assert (Done : forall m p, (n <= m)%nat -> B m (S_ m) p -> 0 <= pK p -> k <= pu p -> exists m, (n <= m)%nat /\ y_mutex (x m) = None /\ In (tau k) (trans (y_ev (x m)))).
  { intros m p L HB HK HU. destruct (freed' bp c tau x acts h He Hex Hrun m) as (m2 & L2 & Hm). destruct (keys_later m m2 p L2 HB) as (p2 & B2 & K2 & U2). exists m2. conj; auto; try lia.
    rewrite (settle_none bp _ Hm) in B2. rewrite (ev_trans _ _ _ _ (rs_ev _ _ _ _ _ _ _ _ _ _ _ _ _ (bi_rest _ _ _ _ _ _ _ _ _ _ _ _ B2))). replace (pK p2 <? 0) with false by lia.
    apply in_map. apply in_zrange. lia. }
  destruct (xB bp c tau x acts h He Hex n) as [p HB].
  assert (HK : k - 1 <= pK p).
  { pose proof (B_keys c tau h _ _ _ HB) as (_ & _ & O). destruct (settle_log bp (x n)) as [l El]. rewrite El, opts_app in O.
    assert (X : In (k - 1) (zrange 0 (pK p))) by (rewrite <- O; apply in_or_app; auto). apply in_zrange in X. lia. }
  destruct (Z.le_gt_cases k (pu p)) as [L|L]; [apply (Done n p); auto; lia|].
  pose proof (B_phase c tau h _ _ _ HB) as PH. destruct PH as [PH|(P0 & PU & _)]; [lia|].
  assert (Hp : pend (S_ n) TImu <> []).
  { intros Z. pose proof (en_imu _ _ _ _ _ _ _ _ _ _ (bi_env _ _ _ _ _ _ _ _ _ _ _ _ HB)) as X. rewrite Z in X. rewrite zrange_cons in X by lia. discriminate. }
  destruct (served bp c tau x acts h He Hex Hrun Hfair Hpool TImu n p HB Hp) as (m & Lm & St).
  destruct (keys_later n m p Lm HB) as (p1 & B1 & K1 & U1). destruct (section_effect m p1 B1) as (p2 & B2 & K2 & U2 & X).
  destruct (Z.le_gt_cases k (pu p1)) as [L1|L1]; [apply (Done m p1); auto; lia|].
  pose proof (B_phase c tau h _ _ _ B1) as PH1. destruct PH1 as [PH1|(_ & PU1 & _)]; [lia|].
  destruct (X TImu St) as [_ X2]. specialize (X2 eq_refl ltac:(lia)). apply (Done (S m) p2); auto; lia.
Qed.
End More.
