(* Consequences of the healthy-environment invariant: no failure, lock-step keys, order of optimisation, use of the
   barometer messages, and progress. *)
From Verif Require Import Base GmModel GmSpec GmInv GmProofs GmFactors GmValues GmHist GmKeys GmStereo GmIds GmReady.
From Verif Require Import BeModel BeSpec BeProofs BeEff BeAbs BeInv BeSect BeHealthy.

Local Open Scope Z_scope.

Section Live.
Variable bp : Z -> Z -> Z -> Z -> Z.
Variable c : config.
Variable tau : Z -> Z.

Notation hreach := (hreach bp c tau).
Notation environment := (environment c tau).
Notation binv := (binv c tau).

(* ---- no failure ---- *)
Lemma settle_other s t : (forall m p, pget (y_ctl s) t <> CRun m p) -> pget (y_ctl (settle bp s)) t = pget (y_ctl s) t.
Proof.
  intros H. unfold settle. destruct (y_mutex s) as [t0|]; [|reflexivity].
  destruct (pget (y_ctl s) t0) as [| | |m p|] eqn:E; try reflexivity.
  assert (N : t <> t0) by (intros ->; apply (H m p); exact E).
  unfold complete. destruct (prun bp p (y_g s) (y_log s) (y_ev s)) as [[[g lg] e] [o|]]; [destruct o|]; cbn; unfold throws; cbn; rewrite pget_upd_ne by exact N; reflexivity.
Qed.

Lemma never_fails hist s t leak : environment -> hreach hist s -> pget (y_ctl s) t <> CFail leak.
Proof.
  intros He H E. destruct (hreach_healthy bp c tau _ _ He H) as (K & u & r & st & b & cb & fr & cal & B).
  pose proof (bi_ctl _ _ _ _ _ _ _ _ _ _ _ _ B t) as X. rewrite settle_other, E in X; [exact X|]. rewrite E. discriminate.
Qed.

Lemma mutex_in_section hist s t : environment -> hreach hist s -> y_mutex s = Some t -> in_section (pget (y_ctl s) t).
Proof.
  intros He H Hm. pose proof (reachable_excl _ _ _ (hreach_reach bp c tau _ _ H)) as X.
  destruct (ex_held _ _ X t Hm) as [Y|Y]; [exact Y|]. exfalso. eapply never_fails; eauto.
Qed.

Lemma settle_none s : y_mutex s = None -> settle bp s = s.
Proof. intros H. unfold settle. rewrite H. reflexivity. Qed.

(* ---- lock step ---- *)
Definition key_is (n : string) (s : sys) (k : Z) : Prop := gm_key n 0 (i_gm (y_g s)) = Ok k.

Lemma lock_step hist s : environment -> hreach hist s -> y_mutex s = None -> odoms (y_ev s) <> [] ->
  exists K u, i_opt (y_g s) = K /\ 0 <= K /\ key_is "imu"%string s u /\ K <= u <= K + 1 /\
    (c_reg c = true -> exists r, key_is "reg"%string s r /\ K <= r <= u) /\
    (c_stereo c = true -> exists k, key_is "stereo"%string s k /\ -1 <= k <= u /\ (1 <= K -> K <= k)) /\
    (c_baro c = true -> exists b, key_is "barometer"%string s b /\ 0 <= b <= u + 1) /\
    (forall k, 0 <= k <= int_max -> (is_ok (gm_get SymX k (i_gm (y_g s))) = true <-> k <= u)) /\
    (forall k, 0 <= k <= u -> gm_timestamp k (i_gm (y_g s)) = Ok (tau k)).
Proof.
  intros He H Hm Ho. destruct (hreach_healthy bp c tau _ _ He H) as (K & u & r & st & b & cb & fr & cal & B). rewrite settle_none in B by exact Hm.
  pose proof (bi_rest _ _ _ _ _ _ _ _ _ _ _ _ B) as R. pose proof (rs_abs _ _ _ _ _ _ _ _ _ _ _ _ _ R) as A.
  assert (HK : 0 <= K).
  { destruct (Z.lt_ge_cases K 0) as [L|L]; [|exact L]. pose proof (ev_odoms _ _ _ _ (rs_ev _ _ _ _ _ _ _ _ _ _ _ _ _ R)) as X.
    rewrite zrange_nil in X by lia. cbn in X. congruence. }
  rewrite nn_pos in A by exact HK. destruct (rs_phase _ _ _ _ _ _ _ _ _ _ _ _ _ R) as [X|(_ & PU & PI & PR & PS & PB & PN)]; [lia|].
  assert (KV : forall n k p, keyview c (mkA K u r st b (u + 1) (u + 1) (u + 1) cb (u + 1) st fr cal) n = Some (k, p) -> key_is n s k).
  { intros n k p E. unfold key_is. rewrite (abs_keyq _ _ _ _ _ n 0 k p A E). f_equal. lia. }
  exists K, u. split; [apply (ab_opt _ _ _ _ _ A)|]. split; [exact HK|]. split; [apply (KV "imu"%string u 0); reflexivity|]. split; [exact PU|].
  split; [intros E; exists r; rewrite E in PR; split; [apply (KV "reg"%string r 0); cbn; rewrite E; reflexivity|exact PR]|].
  split; [intros E; exists st; rewrite E in PS; split; [apply (KV "stereo"%string st 0); cbn; rewrite E; reflexivity|exact PS]|].
  split; [intros E; exists b; rewrite E in PB; split; [apply (KV "barometer"%string b 1); cbn; rewrite E; reflexivity|lia]|].
  split.
  - intros k Hk. assert (Hi : 0 <= k <= int_max + 1) by lia.
    pose proof (ab_val _ _ _ _ _ A SymX k eq_refl (idx_int k Hi)) as V. cbn [cnt aX] in V. rewrite <- some_key in V.
    unfold gm_get, sym_key. rewrite idx_int by lia. cbn [rbind].
    destruct (mget (raw SymX k) (g_val (i_gm (y_g s)))); cbn [is_ok]; split; intros Q; try discriminate; auto.
    + assert (k < u + 1) by (apply V; congruence). lia.
    + exfalso. apply V; [lia|reflexivity].
  - intros k Hk. apply (abs_tsq _ _ _ _ _ k A); [lia|]. cbn [aT]. lia.
Qed.

(* ---- order ---- *)
Lemma prun_log p : forall g log ev, exists l, snd (fst (fst (prun bp p g log ev))) = log ++ l.
Proof.
  induction p as [o| |op k IH|k IH|e k IH]; intros g log ev; cbn [prun].
  - exists []. rewrite app_nil_r. reflexivity.
  - exists []. rewrite app_nil_r. reflexivity.
  - destruct (gm_step bp g op) as [g' [x| |]]; [|exists [op]; reflexivity|exists [op]; reflexivity].
    destruct (IH g' (log ++ [op]) ev) as [l E]. exists (op :: l). rewrite E, <- app_assoc. reflexivity.
  - apply IH.
  - apply IH.
Qed.
Lemma settle_log s : exists l, y_log (settle bp s) = y_log s ++ l.
Proof.
  unfold settle. destruct (y_mutex s) as [t|]; [|exists []; rewrite app_nil_r; reflexivity].
  destruct (pget (y_ctl s) t); try (exists []; rewrite app_nil_r; reflexivity).
  unfold complete. pose proof (prun_log p (y_g s) (y_log s) (y_ev s)) as X. destruct (prun bp p (y_g s) (y_log s) (y_ev s)) as [[[g lg] e] x].
  cbn in X. destruct x as [o|]; [destruct o|]; exact X.
Qed.
Lemma zrange_prefix a : forall b l1 l2, zrange a b = l1 ++ l2 -> l1 = zrange a (a + len l1 - 1) .
Proof.
  intros b l1. revert a b. induction l1 as [|x l1 IH]; intros a b l2 E.
  - rewrite zrange_nil; [reflexivity|]. unfold len. cbn. lia.
  - destruct (Z.lt_ge_cases b a) as [L|L]; [rewrite zrange_nil in E by lia; discriminate|].
    rewrite zrange_cons in E by lia. cbn [app] in E. injection E as <- E. apply IH in E. rewrite len_cons.
    pose proof (len_nonneg l1). rewrite (zrange_cons a) by lia. f_equal. rewrite E at 1. f_equal. lia.
Qed.

Lemma optimised_in_order hist s : environment -> hreach hist s ->
  (exists K, -1 <= K /\ opts (y_log s) = zrange 0 K) /\
  (forall l1 o k l2, y_log s = l1 ++ OOptimise o k :: l2 ->
     opts l1 = zrange 0 (k - 1) /\
     (1 <= k -> (c_imu c = true -> crts FImu l1 = zrange 1 k) /\ (c_reg c = true -> crts FBetweenPose l1 = zrange 1 k) /\
                (c_stereo c = true -> stereo_incs l1 = k + 1))).
Proof.
  intros He H. destruct (hreach_healthy bp c tau _ _ He H) as (K & u & r & st & b & cb & fr & cal & B).
  pose proof (rs_log _ _ _ _ _ _ _ _ _ _ _ _ _ (bi_rest _ _ _ _ _ _ _ _ _ _ _ _ B)) as L. destruct (settle_log s) as [l El]. rewrite El in L. split.
  - pose proof (lv_opts _ _ _ _ _ _ _ L) as X. rewrite opts_app in X. symmetry in X. apply zrange_prefix in X.
    exists (0 + len (opts (y_log s)) - 1). split; [|exact X]. pose proof (len_nonneg (opts (y_log s))). lia.
  - intros l1 o k l2 E. apply (lv_before _ _ _ _ _ _ _ L l1 o k (l2 ++ l)). rewrite E, <- app_assoc. reflexivity.
Qed.

Lemma map_prefix {A B} (f : A -> B) : forall a l1 l2, map f a = l1 ++ l2 -> exists a1 a2, a = a1 ++ a2 /\ l1 = map f a1.
Proof.
  induction a as [|x a IH]; intros l1 l2 E.
  - destruct l1; [|discriminate]. exists [], []. auto.
  - destruct l1 as [|y l1]; [exists [], (x :: a); auto|]. cbn in E. injection E as <- E. apply IH in E. destruct E as (a1 & a2 & -> & ->).
    exists (x :: a1), a2. auto.
Qed.
Lemma published_in_order hist s : environment -> hreach hist s ->
  (exists K, odoms (y_ev s) = map (fun k => (k, tau k)) (zrange 0 K)) /\ (exists u, trans (y_ev s) = map tau (zrange 0 u)) /\
  (y_mutex s = None -> map fst (odoms (y_ev s)) = opts (y_log s)).
Proof.
  intros He H. destruct (hreach_healthy bp c tau _ _ He H) as (K & u & r & st & b & cb & fr & cal & B).
  pose proof (rs_ev _ _ _ _ _ _ _ _ _ _ _ _ _ (bi_rest _ _ _ _ _ _ _ _ _ _ _ _ B)) as L. destruct (settle_ev bp s) as [l El]. rewrite El in L. conj.
  - pose proof (ev_odoms _ _ _ _ L) as X. rewrite odoms_app in X. symmetry in X. apply map_prefix in X.
    destruct X as (a1 & a2 & E & ->). apply zrange_prefix in E. exists (0 + len a1 - 1). rewrite <- E. reflexivity.
  - pose proof (ev_trans _ _ _ _ L) as X. rewrite trans_app in X. symmetry in X. apply map_prefix in X.
    destruct X as (a1 & a2 & E & ->). apply zrange_prefix in E. exists (0 + len a1 - 1). rewrite <- E. reflexivity.
  - intros Hm. rewrite settle_none in B by exact Hm. rewrite settle_none in El by exact Hm.
    assert (l = []). { rewrite <- (app_nil_r (y_ev s)) in El at 1. apply app_inv_head in El. auto. } subst l. rewrite app_nil_r in L.
    rewrite (ev_odoms _ _ _ _ L). rewrite (lv_opts _ _ _ _ _ _ _ (rs_log _ _ _ _ _ _ _ _ _ _ _ _ _ (bi_rest _ _ _ _ _ _ _ _ _ _ _ _ B))).
    rewrite map_map. apply map_id.
Qed.

(* ---- barometer ---- *)
Lemma baro_chain hist s : environment -> hreach hist s -> y_mutex s = None ->
  exists used waiting : list Z,
    map stamp (on TBaro hist) = map tau used ++ waiting /\
    crts FBaro (y_log s) = used /\ crts FPriorBaro (y_log s) = firstn 1 used /\
    crts FBaroBias (y_log s) = zrange 1 (last used 0) /\
    (forall k, 0 <= k <= int_max -> (is_ok (gm_get SymP k (i_gm (y_g s))) = true <-> used <> [] /\ k <= last used 0)).
Proof.
  intros He H Hm. destruct (hreach_healthy bp c tau _ _ He H) as (K & u & r & st & b & cb & fr & cal & B). rewrite settle_none in B by exact Hm.
  exists (crts FBaro (y_log s)), (map stamp (pend s TBaro)). split; [apply (bi_used _ _ _ _ _ _ _ _ _ _ _ _ B)|]. split; [reflexivity|].
  split; [apply (bi_prior _ _ _ _ _ _ _ _ _ _ _ _ B)|].
  pose proof (bi_rest _ _ _ _ _ _ _ _ _ _ _ _ B) as R. pose proof (bi_bar _ _ _ _ _ _ _ _ _ _ _ _ B) as BB.
  pose proof (bi_bpos _ _ _ _ _ _ _ _ _ _ _ _ B) as BZ.
  assert (Hl : (crts FBaro (y_log s) = [] /\ cb = 0) \/ (crts FBaro (y_log s) <> [] /\ cb = last (crts FBaro (y_log s)) 0 + 1 /\ 1 <= cb)).
  { destruct (crts FBaro (y_log s)) as [|k0 l0]; [left; auto|]. right.
    destruct (exists_last (l := k0 :: l0)) as (l1 & x & X); [discriminate|]. rewrite X in *. rewrite map_app in BB. cbn [map] in BB. rewrite last_last in *.
    apply Forall_app in BZ. destruct BZ as [_ BZ]. inversion BZ. conj; auto; try lia. destruct l1; discriminate. }
  split.
  - rewrite (lv_bias _ _ _ _ _ _ _ (rs_log _ _ _ _ _ _ _ _ _ _ _ _ _ R)). destruct Hl as [[-> ->]|(_ & -> & _)]; [reflexivity|]. f_equal. lia.
  - intros k Hk. assert (Hi : 0 <= k <= int_max + 1) by lia.
    pose proof (ab_val _ _ _ _ _ (rs_abs _ _ _ _ _ _ _ _ _ _ _ _ _ R) SymP k eq_refl (idx_int k Hi)) as V. cbn [cnt aP] in V. rewrite <- some_key in V.
    assert (V' : k < cb <-> crts FBaro (y_log s) <> [] /\ k <= last (crts FBaro (y_log s)) 0).
    { destruct Hl as [[-> ->]|(N & -> & _)]; [split; [lia|intros [X _]; congruence]|]. split; [intros; split; [exact N|lia]|lia]. }
    unfold gm_get, sym_key. rewrite idx_int by lia. cbn [rbind]. rewrite <- V', <- V.
    destruct (mget (raw SymP k) (g_val (i_gm (y_g s)))); cbn [is_ok]; split; intros Q; try discriminate; try reflexivity; congruence.
Qed.

(* ---- rest ---- *)
(* every waiting callback would only go back to sleep, and no message can be dispatched *)
Definition quiescent (s : sys) : Prop :=
  y_mutex s = None /\ (forall t, sys_step bp c s (ADispatch t) = None) /\
  (forall t m l, pget (y_ctl s) t = CWant m l ->
     exists l', prun bp (section c (y_ok s) m l) (y_g s) (y_log s) (y_ev s) = (y_g s, y_log s, y_ev s, ROut (OSleep l'))).

Definition enough_workers : Prop :=
  (1 + (if c_reg c then 1 else 0) + (if c_stereo c then 1 else 0) + (if c_baro c then 1 else 0) <= c_pool c)%nat.

(* every input of key k has been delivered *)
Definition supplied (hist : list msg) (k : Z) : Prop :=
  1 <= k <= len (on TImu hist) /\
  (c_reg c = true -> k <= len (on TReg hist)) /\
  (c_stereo c = true -> exists m, In m (on TStereo hist) /\ tau k <= stamp m).

Definition b2n (b : bool) : nat := if b then 1%nat else 0%nat.
Lemma workers_sum s : workers s = (b2n (busy (p_i (y_ctl s))) + b2n (busy (p_u (y_ctl s))) + b2n (busy (p_r (y_ctl s))) + b2n (busy (p_s (y_ctl s))) + b2n (busy (p_b (y_ctl s))))%nat.
Proof.
  unfold workers, all_tids. cbn [filter pget]. destruct (busy (p_i (y_ctl s))), (busy (p_u (y_ctl s))), (busy (p_r (y_ctl s))), (busy (p_s (y_ctl s))), (busy (p_b (y_ctl s))); reflexivity.
Qed.

(* the only callbacks that go back to sleep *)
Lemma sleeps hist s K u r st b cb fr cal t m l l' : environment -> binv hist s K u r st b cb fr cal ->
  pend s t = m :: pget (y_q s) t ->
  prun bp (section c (y_ok s) m l) (y_g s) (y_log s) (y_ev s) = (y_g s, y_log s, y_ev s, ROut (OSleep l')) ->
  (t = TImu /\ K <> u) \/ (t = TStereo /\ c_stereo c = true /\ nn K u <= st + 1) \/ (t = TBaro /\ c_baro c = true).
Proof.
  intros He B Hp EP. destruct He as (M & Hw & _).
  destruct (en_msg _ _ _ _ _ _ _ _ _ _ (bi_env _ _ _ _ _ _ _ _ _ _ _ _ B) t m) as [Hm Ht]; [rewrite Hp; left; reflexivity|].
  assert (Sub : subscribed c t = true).
  { destruct (subscribed c t) eqn:E; [reflexivity|]. apply (bi_sub _ _ _ _ _ _ _ _ _ _ _ _ B) in E. rewrite E in Hp. discriminate. }
  pose proof (bi_rest _ _ _ _ _ _ _ _ _ _ _ _ B) as R. pose proof (bi_env _ _ _ _ _ _ _ _ _ _ _ _ B) as E. pose proof (rs_phase _ _ _ _ _ _ _ _ _ _ _ _ _ R) as PH.
  rewrite (bi_ok _ _ _ _ _ _ _ _ _ _ _ _ B) in EP.
  assert (Hbd : 0 <= u /\ 0 <= r /\ -1 <= st /\ 0 <= b).
  { destruct PH as [PH|PH]; [lia|]. destruct (c_reg c), (c_stereo c), (c_baro c); lia. }
  assert (WP : forall Q, wp bp (section c true m l) (y_g s) (y_log s) (y_ev s) Q -> Q (y_g s) (y_log s) (y_ev s) (OSleep l')).
  { intros Q X. unfold wp in X. rewrite EP in X. exact X. }
  destruct m as [tt p v bi sp sv nz n|tt me ne pr fi n|tt tf va ze n|tt f ba ca n|tt pr vp nz n]; cbn [msg_tid] in Ht; subst t; cbn [section msg_ok] in *.
  - destruct Hm as (Et & -> & -> & -> & Hn).
    assert (HK : K = -1).
    { pose proof (en_init _ _ _ _ _ _ _ _ _ _ E) as X. rewrite Hp, len_cons in X. pose proof (len_nonneg (pget (y_q s) TInit)).
      destruct PH as [PH|PH]; [lia|]. replace (K <? 0) with false in X by lia. lia. }
    destruct (WP _ (S_init bp c tau _ _ _ _ _ _ _ _ _ _ _ tt p v bi n R HK Et Hn)) as [X _]. discriminate.
  - destruct Hm as (-> & -> & -> & Hn). destruct (env_imu_done _ _ _ _ _ _ _ _ _ _ _ _ E Hp ltac:(lia)) as (Et & Hu & HK & _).
    destruct (WP _ (S_imu bp c tau _ _ _ _ _ _ _ _ _ _ _ l tt me n Hw R HK Et Hu Hn)) as [(NE & _)|(_ & X & _)]; [auto|discriminate].
  - destruct Hm as (-> & -> & Hn). destruct (env_reg_done _ _ _ _ _ _ _ _ _ _ _ _ E Hp ltac:(lia)) as (Et & Hu & _).
    assert (HK : 0 <= K) by (destruct PH as [PH|PH]; lia).
    destruct (WP _ (S_reg bp c tau _ _ _ _ _ _ _ _ _ _ _ tt tf n Sub R HK Hu Et Hn)) as [X _]. discriminate.
  - destruct Hm as (-> & Hn & fm & -> & Sf & Hids). pose proof (env_stereo_head _ _ _ _ _ _ _ _ _ _ _ _ _ _ _ _ E Hp) as Hcon.
    destruct (WP _ (S_stereo bp c tau _ _ _ _ _ _ _ _ _ _ _ tt fm ca n Sub R Hn Sf Hids Hcon)) as [(Hlt & _)|[(_ & _ & X & _)|[(_ & _ & X & _)|(_ & _ & X & _)]]]; try discriminate.
    right. left. auto.
  - right. right. auto.
Qed.

(* a callback blocked in a quiescent healthy state *)
Lemma blocked hist s K u r st b cb fr cal t m l : environment -> binv hist s K u r st b cb fr cal -> quiescent s ->
  pget (y_ctl s) t = CWant m l ->
  (t = TImu /\ K <> u) \/ (t = TStereo /\ c_stereo c = true /\ nn K u <= st + 1) \/ (t = TBaro /\ c_baro c = true).
Proof.
  intros He B (Qm & Qd & Qw) Hc. destruct (Qw t m l Hc) as [l' EP]. eapply sleeps; eauto. unfold pend. rewrite Hc. reflexivity.
Qed.

Lemma free_dispatch s t : (forall t, sys_step bp c s (ADispatch t) = None) -> pget (y_ctl s) t = CIdle -> (workers s < c_pool c)%nat -> pget (y_q s) t = [].
Proof.
  intros Qd Hi Hw. specialize (Qd t). cbn in Qd. rewrite Hi in Qd. destruct (pget (y_q s) t) as [|m q]; [reflexivity|].
  unfold worker_free in Qd. apply Nat.ltb_lt in Hw. rewrite Hw in Qd. discriminate.
Qed.

Lemma quiescent_done hist s : environment -> enough_workers -> hreach hist s -> quiescent s ->
  forall k, supplied hist k -> In k (opts (y_log s)).
Proof.
  intros He Hp H Q k ((Hk1 & Hk2) & Hk3 & Hk4). pose proof Q as (Qm & Qd & Qw).
  destruct (hreach_healthy bp c tau _ _ He H) as (K & u & r & st & b & cb & fr & cal & B). rewrite settle_none in B by exact Qm.
  pose proof (bi_rest _ _ _ _ _ _ _ _ _ _ _ _ B) as R. pose proof (bi_env _ _ _ _ _ _ _ _ _ _ _ _ B) as E.
  pose proof (rs_phase _ _ _ _ _ _ _ _ _ _ _ _ _ R) as PH. pose proof He as (M & _).
  rewrite (lv_opts _ _ _ _ _ _ _ (rs_log _ _ _ _ _ _ _ _ _ _ _ _ _ R)). apply in_zrange.
  assert (Sh : forall t, pget (y_ctl s) t = CIdle \/ exists m l, pget (y_ctl s) t = CWant m l).
  { intros t. pose proof (bi_ctl _ _ _ _ _ _ _ _ _ _ _ _ B t) as X. destruct (pget (y_ctl s) t) as [|m l|m l| |] eqn:Ec; eauto; try contradiction.
    pose proof (reachable_excl _ _ _ (hreach_reach bp c tau _ _ H)) as Y. pose proof (ex_owner _ _ Y t) as O. rewrite Ec in O. specialize (O I). congruence. }
  assert (Bi : pget (y_ctl s) TInit = CIdle).
  { destruct (Sh TInit) as [X|(m & l & X)]; [exact X|]. destruct (blocked _ _ _ _ _ _ _ _ _ _ _ _ _ He B Q X) as [[X1 _]|[[X1 _]|[X1 _]]]; discriminate. }
  assert (Br : pget (y_ctl s) TReg = CIdle).
  { destruct (Sh TReg) as [X|(m & l & X)]; [exact X|]. destruct (blocked _ _ _ _ _ _ _ _ _ _ _ _ _ He B Q X) as [[X1 _]|[[X1 _]|[X1 _]]]; discriminate. }
  assert (Nb : forall t, subscribed c t = false -> pget (y_ctl s) t = CIdle /\ pget (y_q s) t = []).
  { intros t Ht. pose proof (bi_sub _ _ _ _ _ _ _ _ _ _ _ _ B t Ht) as X. unfold pend in X. apply app_eq_nil in X. destruct X as [X1 X2]. split; [|exact X2].
    destruct (Sh t) as [X|(m & l & X)]; [exact X|]. rewrite X in X1. discriminate. }
  assert (Wk : (workers s <= b2n (busy (p_u (y_ctl s))) + b2n (c_stereo c) + b2n (c_baro c))%nat).
  { rewrite workers_sum. change (p_i (y_ctl s)) with (pget (y_ctl s) TInit). change (p_r (y_ctl s)) with (pget (y_ctl s) TReg). rewrite Bi, Br. cbn [busy b2n].
    assert (X1 : (b2n (busy (p_s (y_ctl s))) <= b2n (c_stereo c))%nat).
    { destruct (c_stereo c) eqn:Es; [destruct (busy (p_s (y_ctl s))); cbn; lia|]. destruct (Nb TStereo Es) as [X _]. cbn [pget] in X. rewrite X. cbn. lia. }
    assert (X2 : (b2n (busy (p_b (y_ctl s))) <= b2n (c_baro c))%nat).
    { destruct (c_baro c) eqn:Es; [destruct (busy (p_b (y_ctl s))); cbn; lia|]. destruct (Nb TBaro Es) as [X _]. cbn [pget] in X. rewrite X. cbn. lia. }
    lia. }
  unfold enough_workers in Hp.
  assert (HK0 : 0 <= K). { destruct (en_imu_bd _ _ _ _ _ _ _ _ _ _ E) as [_ X]. apply X. lia. }
  split; [lia|].
  destruct PH as [PH|(_ & PU & PI & PR & PS & PB & PN)]; [lia|].
  destruct (Z.le_gt_cases k K) as [L|L]; [exact L|exfalso].
  (* the imu thread *)
  destruct (Z.eq_dec K u) as [EK|NK].
  { assert (pend s TImu = []).
    { unfold pend. destruct (Sh TImu) as [X|(m & l & X)].
      - rewrite X. cbn [ctl_msgs app]. apply free_dispatch; auto. cbn [pget] in X. rewrite X in Wk. cbn [busy b2n] in Wk. unfold b2n in Wk. destruct (c_reg c), (c_stereo c), (c_baro c); lia.
      - destruct (blocked _ _ _ _ _ _ _ _ _ _ _ _ _ He B Q X) as [[_ X1]|[[X1 _]|[X1 _]]]; [congruence|discriminate|discriminate]. }
    pose proof (en_imu _ _ _ _ _ _ _ _ _ _ E) as X. rewrite H0 in X. rewrite zrange_cons in X by lia. discriminate. }
  destruct PN as [[Er PN]|[Es PN]]; [lia| |].
  - (* registration *)
    rewrite Er in PR. specialize (Hk3 Er).
    assert (pend s TReg = []).
    { unfold pend. rewrite Br. cbn [ctl_msgs app]. apply free_dispatch; auto. rewrite Er in Hp. unfold b2n in Wk. destruct (busy (p_u (y_ctl s))), (c_stereo c), (c_baro c); lia. }
    pose proof (en_reg _ _ _ _ _ _ _ _ _ _ E) as X. rewrite H0 in X. rewrite zrange_cons in X by lia. discriminate.
  - (* stereo *)
    rewrite Es in PS. destruct (Hk4 Es) as (m & Hm & Hs).
    assert (pend s TStereo = []).
    { unfold pend. destruct (Sh TStereo) as [X|(m' & l & X)].
      - rewrite X. cbn [ctl_msgs app]. apply free_dispatch; auto. rewrite workers_sum.
        change (p_i (y_ctl s)) with (pget (y_ctl s) TInit). change (p_r (y_ctl s)) with (pget (y_ctl s) TReg). rewrite Bi, Br. cbn [pget] in X. rewrite X. cbn [busy b2n].
        assert (X2 : (b2n (busy (p_b (y_ctl s))) <= b2n (c_baro c))%nat).
        { destruct (c_baro c) eqn:Eb; [destruct (busy (p_b (y_ctl s))); cbn; lia|]. destruct (Nb TBaro Eb) as [Y _]. cbn [pget] in Y. rewrite Y. cbn. lia. }
        rewrite Es in Hp. unfold b2n in *. destruct (busy (p_u (y_ctl s))), (busy (p_b (y_ctl s))), (c_baro c), (c_reg c); lia.
      - destruct (blocked _ _ _ _ _ _ _ _ _ _ _ _ _ He B Q X) as [[X1 _]|[(_ & _ & X1)|[X1 _]]]; [discriminate| |discriminate].
        rewrite nn_pos in X1 by lia. lia. }
    destruct (en_st _ _ _ _ _ _ _ _ _ _ E) as (don & X1 & X2). rewrite H0 in X1. cbn [map] in X1. rewrite app_nil_r in X1.
    apply (in_map stamp) in Hm. rewrite X1 in Hm. rewrite Forall_forall in X2. apply X2 in Hm.
    assert (tau (st + 1) <= tau k). { destruct (Z.eq_dec (st + 1) k) as [<-|]; [lia|]. apply Z.lt_le_incl. apply M. lia. }
    lia.
Qed.
End Live.
