(* Progress along every strongly fair execution of the back end. *)
From Verif Require Import Base GmModel GmSpec GmInv GmProofs GmFactors GmValues GmHist GmKeys GmStereo GmIds GmReady.
From Verif Require Import BeModel BeSpec BeProofs BeEff BeAbs BeInv BeSect BeHealthy BeLive.

(* the thread that performs an action *)
Definition moves (t : tid) (a : option act) : Prop :=
  match a with Some (ADispatch t') | Some (ALock t') | Some (AStep t') => t' = t | _ => False end.
Lemma moves_dec t a : {moves t a} + {~ moves t a}.
Proof. destruct a as [[m|t'|t'|t'|]|]; cbn; try (right; tauto); destruct (tid_dec t' t); auto. Qed.

Section Exec.
Variable bp : Z -> Z -> Z -> Z -> Z.
Variable c : config.
Variable tau : Z -> Z.

(* thread t could move in state s *)
Definition enabled (t : tid) (s : sys) : Prop := exists a s', moves t (Some a) /\ sys_step bp c s a = Some s'.

(* an infinite execution: at each instant nothing, a delivery allowed by the environment, or a move of a thread *)
Record execution (x : nat -> sys) (acts : nat -> option act) (h : nat -> list msg) : Prop := {
  ex_start : hreach bp c tau (h O) (x O);
  ex_step : forall n, match acts n with
    | None => x (S n) = x n /\ h (S n) = h n
    | Some (ADeliver m) => allowed tau (h n) (y_ev (x n)) m /\ sys_step bp c (x n) (ADeliver m) = Some (x (S n)) /\ h (S n) = h n ++ [m]
    | Some a => internal a /\ sys_step bp c (x n) a = Some (x (S n)) /\ h (S n) = h n
    end }.

(* a thread that keeps becoming able to move for as long as it has not moved eventually moves *)
Definition strongly_fair (x : nat -> sys) (acts : nat -> option act) : Prop :=
  forall t n, (forall m, (n <= m)%nat -> exists m', (m <= m')%nat /\ (enabled t (x m') \/ exists j, (n <= j < m')%nat /\ moves t (acts j))) ->
  exists m, (n <= m)%nat /\ moves t (acts m).
(* the same for a callback that has begun *)
Definition run_fair (x : nat -> sys) (acts : nat -> option act) : Prop :=
  forall t n, busy (pget (y_ctl (x n)) t) = true -> (forall m, (n <= m)%nat -> exists m', (m <= m')%nat /\ (enabled t (x m') \/ exists j, (n <= j < m')%nat /\ moves t (acts j))) ->
  exists m, (n <= m)%nat /\ moves t (acts m).
Lemma strongly_run x acts : strongly_fair x acts -> run_fair x acts.
Proof. intros H t n _. apply H. Qed.
End Exec.

Section Fair.
Variable bp : Z -> Z -> Z -> Z -> Z.
Variable c : config.
Variable tau : Z -> Z.
Variable x : nat -> sys.
Variable acts : nat -> option act.
Variable h : nat -> list msg.
Hypothesis He : environment c tau.
Hypothesis Hex : execution bp c tau x acts h.
Hypothesis Hrun : run_fair bp c x acts.

Notation S_ n := (settle bp (x n)).
Notation by_ t n := (moves t (acts n)).

Record par := mkPar { pK : Z; pu : Z; pr : Z; pst : Z; pb : Z; pcb : Z; pfr : list (omap Z); pcal : bool }.
Definition B (n : nat) (s : sys) (p : par) : Prop := binv c tau (h n) s (pK p) (pu p) (pr p) (pst p) (pb p) (pcb p) (pfr p) (pcal p).

Lemma xreach n : hreach bp c tau (h n) (x n).
Proof.
  induction n as [|n IH]; [apply (ex_start _ _ _ _ _ _ Hex)|].
  pose proof (ex_step _ _ _ _ _ _ Hex n) as X. destruct (acts n) as [[m|t|t|t|]|].
  - destruct X as (A & E & ->). eapply h_deliver; eauto.
  - destruct X as (A & E & ->). eapply h_step; eauto.
  - destruct X as (A & E & ->). eapply h_step; eauto.
  - destruct X as (A & E & ->). eapply h_step; eauto.
  - destruct X as ([] & _).
  - destruct X as (-> & ->). exact IH.
Qed.
Lemma xexcl n : excl bp (x n).
Proof. eapply reachable_excl. eapply hreach_reach. apply xreach. Qed.
Lemma xB n : exists p, B n (S_ n) p.
Proof.
  destruct (hreach_healthy bp c tau _ _ He (xreach n)) as (K & u & r & st & b & cb & fr & cal & X).
  exists (mkPar K u r st b cb fr cal). exact X.
Qed.
Lemma xnofail n t leak : pget (y_ctl (x n)) t <> CFail leak.
Proof. eapply never_fails; [exact He|apply xreach]. Qed.

(* thread t starts a critical section at instant n *)
Definition starts (t : tid) (n : nat) : Prop := acts n = Some (AStep t) /\ exists m l, pget (y_ctl (x n)) t = CHold m l.

Lemma starts_dec t n : {starts t n} + {~ starts t n}.
Proof.
  destruct (acts n) as [[m|t'|t'|t'|]|] eqn:E; try (right; intros [X _]; congruence).
  destruct (tid_dec t' t) as [->|N]; [|right; intros [X _]; congruence].
  destruct (pget (y_ctl (x n)) t) eqn:Ec; try (right; intros [_ (m0 & l0 & X)]; congruence). left. split; eauto.
Qed.

(* one instant *)
Lemma track n p : B n (S_ n) p ->
  ((forall t, ~ starts t n) /\ B (S n) (S_ (S n)) p /\ y_log (S_ (S n)) = y_log (S_ n) /\
     (forall t, exists e, pend (S_ (S n)) t = pend (S_ n) t ++ e)) \/
  (exists t m l p', starts t n /\ h (S n) = h n /\ x n = S_ n /\ pget (y_ctl (x n)) t = CHold m l /\ B (S n) (S_ (S n)) p' /\
     S_ (S n) = complete bp (S_ n) t m (section c (y_ok (S_ n)) m l) /\
     advance bp c (S_ n) (S_ (S n)) t m l (pst p) (pb p) (pst p') (pb p')).
Proof.
  intros HB. pose proof (ex_step _ _ _ _ _ _ Hex n) as X. pose proof (xexcl n) as XE. pose proof He as (M & Hw & Hmg).
  assert (NS : (forall t, acts n <> Some (AStep t)) -> forall t, ~ starts t n) by (intros Y t [Z _]; exact (Y t Z)).
  destruct (acts n) as [[m|t|t|t|]|] eqn:Ea.
  - destruct X as (A & E & Eh). left. split; [apply NS; congruence|].
    destruct (step_settle bp c _ _ _ XE E) as [[(t & m0 & p0 & F & _) _]|F]; [discriminate|]. cbn [ser_of ser_step] in F.
    conj.
    + unfold B in *. rewrite Eh. destruct (settle_ev bp (x n)) as [l El]. eapply binv_deliver; eauto. rewrite El. apply allowed_mono. exact A.
    + cbn in F. destruct (subscribed c (msg_tid m)); [|discriminate]. injection F as <-. reflexivity.
    + intros t. cbn in F. destruct (subscribed c (msg_tid m)); [|discriminate]. injection F as <-. unfold pend. cbn [y_ctl y_q].
      destruct (tid_dec t (msg_tid m)) as [->|N].
      * rewrite pget_upd_eq. exists [m]. rewrite app_assoc. reflexivity.
      * rewrite pget_upd_ne by exact N. exists []. rewrite app_nil_r. reflexivity.
  - destruct X as (_ & E & Eh). left. split; [apply NS; congruence|].
    destruct (step_settle bp c _ _ _ XE E) as [[(t0 & m0 & p0 & F & _) _]|F]; [discriminate|]. cbn [ser_of ser_step] in F.
    conj.
    + unfold B in *. rewrite Eh. eapply binv_dispatch; eauto.
    + cbn in F. destruct (pget (y_ctl (S_ n)) t); try discriminate. destruct (pget (y_q (S_ n)) t); try discriminate. destruct (worker_free c (S_ n)); [|discriminate]. injection F as <-. reflexivity.
    + intros t'. exists []. rewrite app_nil_r.
      assert (HB' : B (S n) (S_ (S n)) p). { unfold B in *. rewrite Eh. eapply binv_dispatch; eauto. }
      pose proof (bi_ctl _ _ _ _ _ _ _ _ _ _ _ _ HB' t) as Hf.
      cbn in F. destruct (pget (y_ctl (S_ n)) t) eqn:Ec; try discriminate. destruct (pget (y_q (S_ n)) t) as [|m q] eqn:Eq; try discriminate. destruct (worker_free c (S_ n)); [|discriminate].
      injection F as F. rewrite <- F in Hf |- *. cbn [y_ctl] in Hf. rewrite pget_upd_eq in Hf. destruct (prelude_ok m); [|destruct Hf].
      unfold pend. cbn [y_ctl y_q]. destruct (tid_dec t' t) as [->|N]; [rewrite !pget_upd_eq, Ec, Eq; reflexivity|rewrite !pget_upd_ne by exact N; reflexivity].
  - destruct X as (_ & E & Eh). left. split; [apply NS; congruence|].
    destruct (step_settle bp c _ _ _ XE E) as [[(t0 & m0 & p0 & F & _) _]|F]; [discriminate|]. cbn [ser_of ser_step] in F.
    conj.
    + unfold B in *. rewrite Eh. eapply binv_lock; eauto.
    + cbn in F. destruct (pget (y_ctl (S_ n)) t); try discriminate. destruct (y_mutex (S_ n)); [discriminate|]. injection F as <-. reflexivity.
    + intros t'. exists []. rewrite app_nil_r. cbn in F. destruct (pget (y_ctl (S_ n)) t) eqn:Ec; try discriminate. destruct (y_mutex (S_ n)); [discriminate|]. injection F as <-.
      unfold pend. cbn [y_ctl y_q]. destruct (tid_dec t' t) as [->|N]; [rewrite !pget_upd_eq, Ec; reflexivity|rewrite !pget_upd_ne by exact N; reflexivity].
  - destruct X as (_ & E & Eh).
    destruct (pget (y_ctl (x n)) t) as [|m l|m l|m p0|] eqn:Ec.
    1,2,5: cbn in E; rewrite Ec in E; discriminate.
    + right. exists t, m, l.
      assert (Hm : y_mutex (x n) = Some t) by (apply (ex_owner _ _ XE); rewrite Ec; exact I).
      assert (ES : S_ n = x n). { apply settle_id. rewrite Hm. intros ? ? ? [= <-]. rewrite Ec. discriminate. }
      destruct (step_settle bp c _ _ _ XE E) as [[(t0 & m0 & p0 & F & G) _]|F]; [congruence|]. cbn [ser_of ser_step] in F. rewrite ES, Ec in F. injection F as F.
      unfold B in *. rewrite Eh. rewrite ES in *. rewrite <- F.
      destruct (section_step bp c tau _ _ _ _ _ _ _ _ _ _ _ _ _ M Hw HB Ec) as (K' & u' & r' & st' & b' & cb' & fr' & cal' & B' & A').
      exists (mkPar K' u' r' st' b' cb' fr' cal'). conj; auto. split; eauto.
    + left. split.
      { intros t' [Y (m' & l' & Z)]. congruence. }
      cbn in E. rewrite Ec in E. injection E as E. pose proof (micro_settle bp _ _ _ _ XE Ec) as F. rewrite E in F.
      unfold B in *. rewrite Eh, F. conj; auto. intros t'. exists []. rewrite app_nil_r. reflexivity.
  - destruct X as ([] & _).
  - destruct X as (Ex & Eh). left. split; [apply NS; congruence|]. unfold B in *. rewrite Ex, Eh. conj; auto. intros t. exists []. rewrite app_nil_r. reflexivity.
Qed.

Lemma track_quiet n p : B n (S_ n) p -> (forall t, ~ starts t n) -> B (S n) (S_ (S n)) p.
Proof. intros HB Q. destruct (track n p HB) as [(_ & X & _)|(t & m & l & p' & X & _)]; [exact X|]. destruct (Q t X). Qed.

(* what other threads leave alone *)
Lemma ctl_other n t : ~ by_ t n -> pget (y_ctl (x (S n))) t = pget (y_ctl (x n)) t.
Proof.
  intros N. pose proof (ex_step _ _ _ _ _ _ Hex n) as X. destruct (acts n) as [[m|t'|t'|t'|]|] eqn:Ea; cbn [moves] in N.
  - destruct X as (_ & E & _). cbn in E. destruct (subscribed c (msg_tid m)); [|discriminate]. injection E as <-. reflexivity.
  - destruct X as (_ & E & _). cbn in E. destruct (pget (y_ctl (x n)) t'); try discriminate. destruct (pget (y_q (x n)) t'); try discriminate.
    destruct (worker_free c (x n)); [|discriminate]. injection E as <-. cbn [y_ctl]. apply pget_upd_ne. congruence.
  - destruct X as (_ & E & _). cbn in E. destruct (pget (y_ctl (x n)) t'); try discriminate. destruct (y_mutex (x n)); [discriminate|].
    injection E as <-. cbn [y_ctl]. apply pget_upd_ne. congruence.
  - destruct X as (_ & E & _). cbn in E. destruct (pget (y_ctl (x n)) t'); try discriminate; injection E as <-.
    + cbn [y_ctl]. apply pget_upd_ne. congruence.
    + destruct p as [o| |op k|k|e k]; cbn [micro].
      * destruct o; cbn [finish y_ctl]; apply pget_upd_ne; congruence.
      * unfold throws. cbn [y_ctl]. apply pget_upd_ne; congruence.
      * destruct (gm_step bp (y_g (x n)) op) as [g [a0| |]]; unfold throws; cbn [y_ctl]; rewrite ?upd_upd; apply pget_upd_ne; congruence.
      * cbn [y_ctl]. apply pget_upd_ne; congruence.
      * cbn [y_ctl]. apply pget_upd_ne; congruence.
  - destruct X as ([] & _).
  - destruct X as (-> & _). reflexivity.
Qed.
Lemma q_other n t : ~ by_ t n -> exists e, pget (y_q (x (S n))) t = pget (y_q (x n)) t ++ e.
Proof.
  intros N. pose proof (ex_step _ _ _ _ _ _ Hex n) as X.
  assert (Z : pget (y_q (x n)) t = pget (y_q (x n)) t ++ []) by (rewrite app_nil_r; reflexivity).
  destruct (acts n) as [[m|t'|t'|t'|]|] eqn:Ea; cbn [moves] in N.
  - destruct X as (_ & E & _). cbn in E. destruct (subscribed c (msg_tid m)); [|discriminate]. injection E as <-. cbn [y_q].
    destruct (tid_dec t (msg_tid m)) as [->|D]; [rewrite pget_upd_eq; eauto|rewrite pget_upd_ne by exact D; eauto].
  - destruct X as (_ & E & _). cbn in E. destruct (pget (y_ctl (x n)) t'); try discriminate. destruct (pget (y_q (x n)) t'); try discriminate.
    destruct (worker_free c (x n)); [|discriminate]. injection E as <-. cbn [y_q]. rewrite pget_upd_ne by congruence. eauto.
  - destruct X as (_ & E & _). cbn in E. destruct (pget (y_ctl (x n)) t'); try discriminate. destruct (y_mutex (x n)); [discriminate|].
    injection E as <-. eauto.
  - destruct X as (_ & E & _). cbn in E. destruct (pget (y_ctl (x n)) t'); try discriminate; injection E as <-; [eauto|].
    destruct p as [o| |op k|k|e k]; cbn [micro].
    + destruct o; cbn [finish y_q]; eauto.
    + eauto.
    + destruct (gm_step bp (y_g (x n)) op) as [g [a0| |]]; unfold throws; cbn [y_q]; eauto.
    + eauto.
    + eauto.
  - destruct X as ([] & _).
  - destruct X as (-> & _). eauto.
Qed.
Lemma q_micro n t m p : acts n = Some (AStep t) -> pget (y_ctl (x n)) t = CRun m p -> y_q (x (S n)) = y_q (x n).
Proof.
  intros Ea Ec. pose proof (ex_step _ _ _ _ _ _ Hex n) as X. rewrite Ea in X. destruct X as (_ & E & _). cbn in E. rewrite Ec in E. injection E as <-.
  destruct p as [o| |op k|k|e k]; cbn [micro]; try reflexivity.
  - destruct o; reflexivity.
  - destruct (gm_step bp (y_g (x n)) op) as [g [a0| |]]; reflexivity.
Qed.

Definition still (t : tid) (n m : nat) : Prop := forall j, (n <= j < m)%nat -> ~ by_ t j.
Lemma still_ctl t n m : (n <= m)%nat -> still t n m -> pget (y_ctl (x m)) t = pget (y_ctl (x n)) t.
Proof.
  intros L. induction L as [|m L IH]; intros S; [reflexivity|].
  rewrite ctl_other by (apply S; lia). apply IH. intros j Hj. apply S. lia.
Qed.
Lemma still_q t n m : (n <= m)%nat -> still t n m -> exists e, pget (y_q (x m)) t = pget (y_q (x n)) t ++ e.
Proof.
  intros L. induction L as [|m L IH]; intros S; [exists []; rewrite app_nil_r; reflexivity|].
  destruct IH as [e E]; [intros j Hj; apply S; lia|]. destruct (q_other m t) as [e' E']; [apply S; lia|].
  exists (e ++ e'). rewrite E', E, app_assoc. reflexivity.
Qed.
(* the owner of the mutex does not move: nobody starts a section *)
Lemma still_quiet t n m p : (n <= m)%nat -> still t n m -> in_section (pget (y_ctl (x n)) t) -> B n (S_ n) p -> B m (S_ m) p.
Proof.
  intros L S Hs HB. induction L as [|m L IH]; [exact HB|].
  assert (Sm : still t n m) by (intros j Hj; apply S; lia).
  apply track_quiet; [apply IH; exact Sm|]. intros t' [Ea (m' & l' & Ec)].
  assert (y_mutex (x m) = Some t) by (apply (ex_owner _ _ (xexcl m)); rewrite (still_ctl t n m L Sm); exact Hs).
  assert (y_mutex (x m) = Some t') by (apply (ex_owner _ _ (xexcl m)); rewrite Ec; exact I).
  assert (t' = t) by congruence. subst t'. apply (S m); [lia|]. rewrite Ea. reflexivity.
Qed.

(* the next move of a thread *)
Lemma first_move t n : forall d, (exists j, (n <= j < n + d)%nat /\ by_ t j) -> exists m, (n <= m)%nat /\ by_ t m /\ still t n m.
Proof.
  induction d as [|d IH]; intros (j & Hj & Hb); [lia|].
  destruct (Nat.eq_dec j (n + d)) as [->|N].
  - assert (D : (exists i, (n <= i < n + d)%nat /\ by_ t i) \/ still t n (n + d)).
    { clear. induction d as [|d IH]; [right; intros j Hj; lia|]. destruct IH as [(i & Hi & Hb)|S]; [left; exists i; split; [lia|exact Hb]|].
      destruct (moves_dec t (acts (n + d))) as [Y|Y]; [left; exists (n + d)%nat; split; [lia|exact Y]|].
      right. intros j Hj. destruct (Nat.eq_dec j (n + d)) as [->|]; [exact Y|]. apply S. lia. }
    destruct D as [D|D]; [apply IH; exact D|]. exists (n + d)%nat. conj; [lia|exact Hb|exact D].
  - apply IH. exists j. split; [lia|exact Hb].
Qed.
Lemma still_or t n m : (exists j, (n <= j < m)%nat /\ by_ t j) \/ still t n m.
Proof.
  induction m as [|m IH]; [right; intros j Hj; lia|]. destruct IH as [(i & Hi & Hb)|S]; [left; exists i; split; [lia|exact Hb]|].
  destruct (moves_dec t (acts m)) as [Y|Y].
  - destruct (Nat.le_gt_cases n m); [left; exists m; split; [lia|exact Y]|right; intros j Hj; lia].
  - right. intros j Hj. destruct (Nat.eq_dec j m) as [->|]; [exact Y|]. apply S. lia.
Qed.
Lemma next_move_of t n : ((forall m, (n <= m)%nat -> exists m', (m <= m')%nat /\ (enabled bp c t (x m') \/ exists j, (n <= j < m')%nat /\ by_ t j)) -> exists m, (n <= m)%nat /\ by_ t m) ->
  (forall m, (n <= m)%nat -> still t n m -> exists m', (m <= m')%nat /\ (still t n m' -> enabled bp c t (x m'))) ->
  exists m, (n <= m)%nat /\ by_ t m /\ still t n m.
Proof.
  intros Fair H. destruct Fair as (m & Hm & Hb).
  - intros m Hm. destruct (still_or t n m) as [(j & Hj & Hb)|S].
    + exists (Nat.max m (Datatypes.S j)). split; [lia|]. right. exists j. split; [lia|exact Hb].
    + destruct (H m Hm S) as (m' & Hm' & E). destruct (still_or t n m') as [D|S']; [exists m'; auto|]. exists m'. split; [exact Hm'|left; auto].
  - apply (first_move t n (Datatypes.S (m - n))). exists m. split; [lia|exact Hb].
Qed.
Lemma next_move t n : busy (pget (y_ctl (x n)) t) = true -> (forall m, (n <= m)%nat -> still t n m -> exists m', (m <= m')%nat /\ (still t n m' -> enabled bp c t (x m'))) ->
  exists m, (n <= m)%nat /\ by_ t m /\ still t n m.
Proof. intros Hb. apply next_move_of. apply Hrun. exact Hb. Qed.

(* a thread inside a section can always move, and its move is a step of the section *)
Lemma step_enabled t s : in_section (pget (y_ctl s) t) -> enabled bp c t s.
Proof.
  intros H. exists (AStep t). cbn. destruct (pget (y_ctl s) t) eqn:E; try destruct H; eexists; split; reflexivity.
Qed.
Lemma step_of t n : in_section (pget (y_ctl (x n)) t) -> by_ t n -> acts n = Some (AStep t) /\ sys_step bp c (x n) (AStep t) = Some (x (S n)).
Proof.
  intros H Hb. pose proof (ex_step _ _ _ _ _ _ Hex n) as X. destruct (acts n) as [[m|t'|t'|t'|]|]; cbn [moves] in Hb; try contradiction; subst t'.
  - destruct X as (_ & E & _). cbn in E. destruct (pget (y_ctl (x n)) t); try destruct H; discriminate.
  - destruct X as (_ & E & _). cbn in E. destruct (pget (y_ctl (x n)) t); try destruct H; discriminate.
  - destruct X as (_ & E & _). auto.
Qed.
Lemma next_step t n : in_section (pget (y_ctl (x n)) t) -> exists m, (n <= m)%nat /\ still t n m /\ acts m = Some (AStep t) /\ sys_step bp c (x m) (AStep t) = Some (x (S m)).
Proof.
  intros H. destruct (next_move t n) as (m & Hm & Hb & S).
  - destruct (pget (y_ctl (x n)) t); try destruct H; reflexivity.
  - intros m Hm S. exists m. split; [lia|]. intros _. apply step_enabled. rewrite (still_ctl t n m Hm S). exact H.
  - exists m. conj; auto; apply step_of; auto; rewrite (still_ctl t n m Hm S); exact H.
Qed.

(* settled control state of a thread that stays put *)
Lemma sctl_other n t : ~ by_ t n -> pget (y_ctl (S_ (S n))) t = pget (y_ctl (S_ n)) t.
Proof.
  intros N. pose proof (ex_step _ _ _ _ _ _ Hex n) as X. pose proof (xexcl n) as XE.
  destruct (acts n) as [[m|t'|t'|t'|]|] eqn:Ea; cbn [moves] in N.
  - destruct X as (_ & E & _). destruct (step_settle bp c _ _ _ XE E) as [[_ F]|F]; [rewrite F; reflexivity|].
    cbn in F. destruct (subscribed c (msg_tid m)); [|discriminate]. injection F as <-. reflexivity.
  - destruct X as (_ & E & _). destruct (step_settle bp c _ _ _ XE E) as [[_ F]|F]; [rewrite F; reflexivity|].
    cbn in F. destruct (pget (y_ctl (S_ n)) t'); try discriminate. destruct (pget (y_q (S_ n)) t'); try discriminate.
    destruct (worker_free c (S_ n)); [|discriminate]. injection F as <-. cbn [y_ctl]. apply pget_upd_ne. congruence.
  - destruct X as (_ & E & _). destruct (step_settle bp c _ _ _ XE E) as [[_ F]|F]; [rewrite F; reflexivity|].
    cbn in F. destruct (pget (y_ctl (S_ n)) t'); try discriminate. destruct (y_mutex (S_ n)); [discriminate|].
    injection F as <-. cbn [y_ctl]. apply pget_upd_ne. congruence.
  - destruct X as (_ & E & _). destruct (step_settle bp c _ _ _ XE E) as [[_ F]|F]; [rewrite F; reflexivity|].
    cbn in F. destruct (pget (y_ctl (S_ n)) t'); try discriminate. injection F as <-. unfold complete.
    destruct (prun bp (section c (y_ok (S_ n)) m l) (y_g (S_ n)) (y_log (S_ n)) (y_ev (S_ n))) as [[[g lg] e] [o|]]; [destruct o|]; unfold throws; cbn; apply pget_upd_ne; congruence.
  - destruct X as ([] & _).
  - destruct X as (-> & _). reflexivity.
Qed.
Lemma still_sctl t n m : (n <= m)%nat -> still t n m -> pget (y_ctl (S_ m)) t = pget (y_ctl (S_ n)) t.
Proof.
  intros L. induction L as [|m L IH]; intros S; [reflexivity|].
  rewrite sctl_other by (apply S; lia). apply IH. intros j Hj. apply S. lia.
Qed.

(* a section in progress ends *)
Lemma run_out t m : forall p n q, pget (y_ctl (x n)) t = CRun m p -> B n (S_ n) q ->
  exists n', (n <= n')%nat /\ B n' (S_ n') q /\ (forall j, (n <= j < n')%nat -> ~ starts t j) /\
    pget (y_ctl (x n')) t = pget (y_ctl (S_ n)) t /\ (exists e, pget (y_q (x n')) t = pget (y_q (x n)) t ++ e) /\
    (y_mutex (x n') = None \/ exists l, pget (y_ctl (x n')) t = CHold m l).
Proof.
  assert (Step : forall p n q, pget (y_ctl (x n)) t = CRun m p -> B n (S_ n) q ->
    exists n', (n <= n')%nat /\ B (S n') (S_ (S n')) q /\ (forall j, (n <= j < S n')%nat -> ~ starts t j) /\ x (S n') = micro bp (x n') t m p /\
      pget (y_ctl (S_ (S n'))) t = pget (y_ctl (S_ n)) t /\ (exists e, pget (y_q (x (S n'))) t = pget (y_q (x n)) t ++ e) /\
      pget (y_ctl (x n')) t = CRun m p /\ y_mutex (x n') = Some t).
  { intros p n q Ec HB. assert (Hin : in_section (pget (y_ctl (x n)) t)) by (rewrite Ec; exact I).
    destruct (next_step t n Hin) as (n' & L & St & Ea & E).
    pose proof (still_ctl t n n' L St) as Ec'. rewrite Ec in Ec'.
    assert (Hin' : in_section (pget (y_ctl (x n')) t)) by (rewrite Ec'; exact I).
    exists n'. pose proof (still_quiet t n n' q L St Hin HB) as HB'.
    assert (NS : forall t', ~ starts t' n'). { intros t' [Y (m' & l' & Z)]. rewrite Ea in Y. injection Y as <-. congruence. }
    split; [exact L|]. split; [apply track_quiet; auto|]. split.
    { intros j Hj. destruct (Nat.eq_dec j n') as [->|]; [apply NS|]. intros [Y _]. apply (St j); [lia|]. rewrite Y. reflexivity. }
    assert (EM : x (S n') = micro bp (x n') t m p) by (cbn in E; rewrite Ec' in E; injection E as <-; reflexivity). split; [exact EM|].
    split. { rewrite EM. rewrite (micro_settle bp _ _ _ _ (xexcl n') Ec'). apply still_sctl; auto. }
    split. { destruct (still_q t n n' L St) as [e Eq]. exists e. rewrite (q_micro n' t m p Ea Ec'). exact Eq. }
    split; [exact Ec'|]. apply (ex_owner _ _ (xexcl n')). exact Hin'. }
  assert (Fin : forall p n q, pget (y_ctl (x n)) t = CRun m p -> B n (S_ n) q -> 
     (forall s, pget (y_ctl s) t = CRun m p -> y_mutex s = Some t -> 
         (y_mutex (micro bp s t m p) = None /\ (pget (y_ctl (micro bp s t m p)) t = CIdle \/ exists l, pget (y_ctl (micro bp s t m p)) t = CWant m l)) \/
         (exists l, pget (y_ctl (micro bp s t m p)) t = CHold m l) \/ (exists lk, pget (y_ctl (micro bp s t m p)) t = CFail lk)) ->
     exists n', (n <= n')%nat /\ B n' (S_ n') q /\ (forall j, (n <= j < n')%nat -> ~ starts t j) /\
    pget (y_ctl (x n')) t = pget (y_ctl (S_ n)) t /\ (exists e, pget (y_q (x n')) t = pget (y_q (x n)) t ++ e) /\
    (y_mutex (x n') = None \/ exists l, pget (y_ctl (x n')) t = CHold m l)).
  { intros p n q Ec HB Hfin. destruct (Step p n q Ec HB) as (n' & L & HB' & NS & EM & ES & Eq & Ec' & Hm').
    specialize (Hfin (x n') Ec' Hm'). rewrite <- EM in Hfin. exists (S n').
    assert (Hn : forall m0 p0, pget (y_ctl (x (S n'))) t <> CRun m0 p0).
    { intros m0 p0 Y. destruct Hfin as [[_ [Z|(l & Z)]]|[(l & Z)|(lk & Z)]]; congruence. }
    conj; auto.
    - rewrite <- ES. rewrite (settle_other bp _ t Hn). reflexivity.
    - destruct Hfin as [[Z _]|[Z|(lk & Z)]]; auto. destruct (xnofail _ _ _ Z). }
  induction p as [o| |op k IH|k IH|e k IH]; intros n q Ec HB.
  - apply (Fin _ _ _ Ec HB). intros s Es Hm. cbn [micro]. destruct o; cbn [finish y_ctl y_mutex]; rewrite pget_upd_eq; eauto 6.
  - apply (Fin _ _ _ Ec HB). intros s Es Hm. cbn [micro]. unfold throws. cbn [y_ctl y_mutex]. rewrite pget_upd_eq. eauto 6.
  - destruct (Step _ _ _ Ec HB) as (n' & L & HB' & NS & EM & ES & (e & Eq) & Ec' & Hm').
    cbn [micro] in EM. destruct (gm_step bp (y_g (x n')) op) as [g [a0| |]].
    + assert (Ec2 : pget (y_ctl (x (S n'))) t = CRun m k) by (rewrite EM; cbn [y_ctl]; apply pget_upd_eq).
      destruct (IH _ _ Ec2 HB') as (n2 & L2 & B2 & NS2 & E2 & (e2 & Q2) & M2). exists n2. conj; auto; try lia.
      * intros j Hj. destruct (Nat.le_gt_cases (S n') j); [apply NS2; lia|apply NS; lia].
      * rewrite E2. exact ES.
      * exists (e ++ e2). rewrite Q2, Eq, app_assoc. reflexivity.
    + destruct (xnofail (S n') t (negb (raii m))). rewrite EM. unfold throws. cbn [y_ctl]. apply pget_upd_eq.
    + destruct (xnofail (S n') t (negb (raii m))). rewrite EM. unfold throws. cbn [y_ctl]. apply pget_upd_eq.
  - destruct (Step _ _ _ Ec HB) as (n' & L & HB' & NS & EM & ES & (e & Eq) & Ec' & Hm'). cbn [micro] in EM.
    assert (Ec2 : pget (y_ctl (x (S n'))) t = CRun m (k (y_g (x n')))) by (rewrite EM; cbn [y_ctl]; apply pget_upd_eq).
    destruct (IH _ _ _ Ec2 HB') as (n2 & L2 & B2 & NS2 & E2 & (e2 & Q2) & M2). exists n2. conj; auto; try lia.
    + intros j Hj. destruct (Nat.le_gt_cases (S n') j); [apply NS2; lia|apply NS; lia].
    + rewrite E2. exact ES.
    + exists (e ++ e2). rewrite Q2, Eq, app_assoc. reflexivity.
  - destruct (Step _ _ _ Ec HB) as (n' & L & HB' & NS & EM & ES & (e' & Eq) & Ec' & Hm'). cbn [micro] in EM.
    assert (Ec2 : pget (y_ctl (x (S n'))) t = CRun m k) by (rewrite EM; cbn [y_ctl]; apply pget_upd_eq).
    destruct (IH _ _ Ec2 HB') as (n2 & L2 & B2 & NS2 & E2 & (e2 & Q2) & M2). exists n2. conj; auto; try lia.
    + intros j Hj. destruct (Nat.le_gt_cases (S n') j); [apply NS2; lia|apply NS; lia].
    + rewrite E2. exact ES.
    + exists (e' ++ e2). rewrite Q2, Eq, app_assoc. reflexivity.
Qed.

(* the pending messages determine the keys *)
Lemma len_map {A C} (f : A -> C) l : len (map f l) = len l.
Proof. unfold len. rewrite map_length. reflexivity. Qed.
Lemma len_zrange a b : a <= b + 1 -> len (zrange a b) = b - a + 1.
Proof. intros H. unfold len, zrange. rewrite map_length, seq_length. lia. Qed.
Lemma B_keys n s p : B n s p -> pu p = len (on TImu (h n)) - len (pend s TImu) /\ pr p = len (on TReg (h n)) - len (pend s TReg) /\
  opts (y_log s) = zrange 0 (pK p).
Proof.
  intros HB. pose proof (bi_env _ _ _ _ _ _ _ _ _ _ _ _ HB) as E. conj.
  - pose proof (en_imu _ _ _ _ _ _ _ _ _ _ E) as X. apply (f_equal (@len Z)) in X. rewrite !len_map in X.
    pose proof (en_imu_bd _ _ _ _ _ _ _ _ _ _ E) as [Y _]. rewrite len_zrange in X by lia. lia.
  - pose proof (en_reg _ _ _ _ _ _ _ _ _ _ E) as X. apply (f_equal (@len Z)) in X. rewrite !len_map in X.
    pose proof (en_reg_bd _ _ _ _ _ _ _ _ _ _ E) as Y. rewrite len_zrange in X by lia. lia.
  - apply (lv_opts _ _ _ _ _ _ _ (rs_log _ _ _ _ _ _ _ _ _ _ _ _ _ (bi_rest _ _ _ _ _ _ _ _ _ _ _ _ HB))).
Qed.
Lemma B_phase n s p : B n s p -> phase c (pK p) (pu p) (pr p) (pst p) (pb p) (pcb p).
Proof. intros HB. apply (rs_phase _ _ _ _ _ _ _ _ _ _ _ _ _ (bi_rest _ _ _ _ _ _ _ _ _ _ _ _ HB)). Qed.

Lemma adv_pend s s' t m l st b st' b' : pend s t = m :: pget (y_q s) t -> advance bp c s s' t m l st b st' b' ->
  (forall t', t' <> t -> pend s' t' = pend s t') /\ (pend s' t = pend s t \/ pend s t = m :: pend s' t) /\ st <= st' /\ b <= b'.
Proof.
  intros Hp [l' E E1 E2 _|Ec Eq _ H1 H2|l' Ec Eq _ H1 H2 _ _].
  - subst s'. conj; try lia.
    + intros t' N. unfold pend. cbn [y_ctl y_q]. rewrite pget_upd_ne by exact N. reflexivity.
    + left. unfold pend at 1. cbn [y_ctl y_q]. rewrite pget_upd_eq. cbn [ctl_msgs app]. symmetry. exact Hp.
  - conj; try lia.
    + intros t' N. unfold pend. rewrite Ec, Eq, pget_upd_ne by exact N. reflexivity.
    + right. rewrite Hp. unfold pend. rewrite Ec, Eq, pget_upd_eq. reflexivity.
  - conj; try lia.
    + intros t' N. unfold pend. rewrite Ec, Eq, pget_upd_ne by exact N. reflexivity.
    + left. rewrite Hp. unfold pend. rewrite Ec, Eq, pget_upd_eq. reflexivity.
Qed.
Lemma log_complete s t m p : exists l, y_log (complete bp s t m p) = y_log s ++ l.
Proof.
  unfold complete. pose proof (prun_log bp p (y_g s) (y_log s) (y_ev s)) as X. destruct (prun bp p (y_g s) (y_log s) (y_ev s)) as [[[g lg] e] o].
  cbn in X. destruct o as [o|]; [destruct o|]; exact X.
Qed.
Lemma zrange_mono K K' l : -1 <= K -> -1 <= K' -> zrange 0 K' = zrange 0 K ++ l -> K <= K'.
Proof. intros H1 H2 E. apply (f_equal (@len Z)) in E. rewrite len_app, !len_zrange in E by lia. pose proof (len_nonneg l). lia. Qed.

(* the mutex is released again and again *)
Lemma freed : forall N n p, B n (S_ n) p -> 2 * pu p + 2 - pst p - pb p <= Z.of_nat N -> exists m, (n <= m)%nat /\ y_mutex (x m) = None.
Proof.
  assert (Run : forall n p t m q, B n (S_ n) p -> pget (y_ctl (x n)) t = CRun m q ->
     exists n', (n <= n')%nat /\ (y_mutex (x n') = None \/ B n' (S_ n') p /\ exists l, pget (y_ctl (x n')) t = CHold m l /\ pget (y_ctl (S_ n)) t = CHold m l)).
  { intros n p t m q HB Ec. destruct (run_out t m q n p Ec HB) as (n' & L & HB' & _ & E1 & _ & [E2|(l & E2)]).
    - exists n'. auto.
    - exists n'. split; [exact L|]. right. split; [exact HB'|]. exists l. split; congruence. }
  assert (Hold : forall N, (forall n p, B n (S_ n) p -> 2 * pu p + 2 - pst p - pb p <= Z.of_nat N -> exists m, (n <= m)%nat /\ y_mutex (x m) = None) ->
     forall n p t m l, B n (S_ n) p -> 2 * pu p + 2 - pst p - pb p <= Z.of_nat (S N) -> pget (y_ctl (x n)) t = CHold m l -> exists m', (n <= m')%nat /\ y_mutex (x m') = None).
  { intros N IH n p t m l HB Hle Ec. assert (Hin : in_section (pget (y_ctl (x n)) t)) by (rewrite Ec; exact I).
    destruct (next_step t n Hin) as (n1 & L & St & Ea & E). pose proof (still_ctl t n n1 L St) as Ec1. rewrite Ec in Ec1.
    pose proof (still_quiet t n n1 p L St Hin HB) as HB1.
    destruct (track n1 p HB1) as [(NS & _)|(t' & m' & l' & p' & [Ea' _] & Eh & ES & Ec' & HB2 & EC & Adv)].
    { destruct (NS t). split; eauto. }
    rewrite Ea in Ea'. injection Ea' as <-. rewrite Ec1 in Ec'. injection Ec' as <- <-.
    assert (Er : pget (y_ctl (x (S n1))) t = CRun m (section c (y_ok (x n1)) m l)).
    { cbn in E. rewrite Ec1 in E. injection E as <-. cbn [y_ctl]. apply pget_upd_eq. }
    destruct (Run _ _ _ _ _ HB2 Er) as (n2 & L2 & [Z|(HB3 & l2 & Ec2 & Ec3)]); [exists n2; split; [lia|exact Z]|].
    destruct (IH n2 p' HB3) as (m' & Lm & Z); [|exists m'; split; [lia|exact Z]].
    assert (Hpd : pend (S_ n1) t = m :: pget (y_q (S_ n1)) t) by (unfold pend; rewrite <- ES, Ec1; reflexivity).
    pose proof (B_keys _ _ _ HB1) as (U1 & _). pose proof (B_keys _ _ _ HB2) as (U2 & _). rewrite Eh in U2.
    destruct Adv as [l0 F _ _ _|F _ _ _ _|l0 F Fq _ H1 H2 H3 _].
    + rewrite F in Ec3. cbn [y_ctl] in Ec3. rewrite pget_upd_eq in Ec3. discriminate.
    + rewrite F, pget_upd_eq in Ec3. discriminate.
    + assert (pend (S_ (S n1)) TImu = pend (S_ n1) TImu).
      { unfold pend. rewrite F, Fq. destruct (tid_dec TImu t) as [<-|Ne]; [rewrite pget_upd_eq; symmetry; exact Hpd|rewrite pget_upd_ne by exact Ne; reflexivity]. }
      rewrite H in U2. lia. }
  intros N. induction N as [N IHN] using lt_wf_ind. intros n p HB Hle.
  destruct (y_mutex (x n)) as [t|] eqn:Em; [|exists n; auto].
  pose proof (mutex_in_section bp c tau _ _ _ He (xreach n) Em) as Hin.
  assert (Hpos : 0 < 2 * pu p + 2 - pst p - pb p).
  { pose proof (B_phase _ _ _ HB) as [PH|PH]; [lia|]. destruct (c_stereo c), (c_baro c); lia. }
  destruct N as [|N]; [lia|].
  assert (IH : forall n p, B n (S_ n) p -> 2 * pu p + 2 - pst p - pb p <= Z.of_nat N -> exists m, (n <= m)%nat /\ y_mutex (x m) = None) by (apply IHN; lia).
  destruct (pget (y_ctl (x n)) t) as [|?|m l|m q|] eqn:Ec; try destruct Hin.
  - eapply Hold; eauto.
  - destruct (Run _ _ _ _ _ HB Ec) as (n' & L & [Z|(HB' & l & E1 & _)]); [exists n'; auto|].
    destruct (Hold N IH n' p t m l HB' Hle E1) as (m' & L' & Z). exists m'. split; [lia|exact Z].
Qed.
Lemma freed' n : exists m, (n <= m)%nat /\ y_mutex (x m) = None.
Proof. destruct (xB n) as [p HB]. apply (freed (Z.to_nat (2 * pu p + 2 - pst p - pb p)) n p HB). lia. Qed.

Lemma hold_served t n m l : pget (y_ctl (x n)) t = CHold m l -> exists m', (n <= m')%nat /\ starts t m'.
Proof.
  intros Ec. assert (Hin : in_section (pget (y_ctl (x n)) t)) by (rewrite Ec; exact I).
  destruct (next_step t n Hin) as (n1 & L & St & Ea & E). exists n1. split; [exact L|]. split; [exact Ea|]. rewrite (still_ctl t n n1 L St). eauto.
Qed.
Lemma want_served t n m l : pget (y_ctl (x n)) t = CWant m l -> exists m', (n <= m')%nat /\ starts t m'.
Proof.
  intros Ec. destruct (next_move t n) as (n1 & L & Hb & St).
  - rewrite Ec. reflexivity.
  - intros m1 L1 _. destruct (freed' m1) as (m2 & L2 & Hm). exists m2. split; [exact L2|]. intros S2. exists (ALock t). cbn.
    rewrite (still_ctl t n m2) by (auto; lia). rewrite Ec, Hm. eexists. split; reflexivity.
  - pose proof (still_ctl t n n1 L St) as E1. rewrite Ec in E1. pose proof (ex_step _ _ _ _ _ _ Hex n1) as X.
    destruct (acts n1) as [[m1|t'|t'|t'|]|]; cbn [moves] in Hb; try contradiction; subst t'; destruct X as (_ & E & _); cbn in E; rewrite E1 in E; try discriminate.
    destruct (y_mutex (x n1)); [discriminate|]. injection E as E.
    destruct (hold_served t (S n1) m l) as (m' & L' & Hs); [rewrite <- E; cbn [y_ctl]; apply pget_upd_eq|]. exists m'. split; [lia|exact Hs].
Qed.
(* a callback that has begun gets a section of its own, unless the section in progress ends it *)
Lemma busy_served t n p : B n (S_ n) p -> busy (pget (y_ctl (x n)) t) = true -> (exists m, (n <= m)%nat /\ starts t m) \/ (exists m, (n <= m)%nat /\ pget (y_ctl (x m)) t = CIdle).
Proof.
  intros HB Hb. destruct (pget (y_ctl (x n)) t) as [|m l|m l|m q|lk] eqn:Ec; try discriminate Hb.
  - left. eapply want_served; eauto.
  - left. eapply hold_served; eauto.
  - destruct (run_out t m q n p Ec HB) as (n' & L & HB' & _ & E1 & _ & _). pose proof (bi_ctl _ _ _ _ _ _ _ _ _ _ _ _ HB t) as Z.
    destruct (pget (y_ctl (S_ n)) t) as [|m1 l1|m1 l1|m1 q1|lk] eqn:Es; try destruct Z.
    + right. exists n'. auto.
    + left. destruct (want_served t n' m1 l1 E1) as (m' & L' & H). exists m'. split; [lia|exact H].
    + left. destruct (hold_served t n' m1 l1 E1) as (m' & L' & H). exists m'. split; [lia|exact H].
Qed.

(* ---- every pending message gets a section ---- *)
Hypothesis Hfair : strongly_fair bp c x acts.
Hypothesis Hpool : enough_workers c.

Lemma B_init_idle n s p : B n s p -> 0 <= pK p -> pend s TInit = [].
Proof.
  intros HB HK. pose proof (en_init _ _ _ _ _ _ _ _ _ _ (bi_env _ _ _ _ _ _ _ _ _ _ _ _ HB)) as X.
  replace (pK p <? 0) with false in X by lia. apply nil_of_len. lia.
Qed.
Lemma K_step n p : B n (S_ n) p -> exists p', B (S n) (S_ (S n)) p' /\ pK p <= pK p'.
Proof.
  intros HB. pose proof (B_keys _ _ _ HB) as (_ & _ & O1). pose proof (B_phase _ _ _ HB) as PH.
  destruct (track n p HB) as [(_ & X & _)|(t & m & l & p' & _ & _ & _ & _ & HB' & EC & _)]; [exists p; split; [exact X|lia]|].
  exists p'. split; [exact HB'|]. pose proof (B_keys _ _ _ HB') as (_ & _ & O2). pose proof (B_phase _ _ _ HB') as PH'.
  rewrite EC in O2. destruct (log_complete (S_ n) t m (section c (y_ok (S_ n)) m l)) as [lg El]. rewrite El, opts_app, O1 in O2.
  eapply zrange_mono; [| |symmetry; exact O2]; destruct PH, PH'; lia.
Qed.
Lemma B_K_unique n s p p' : B n s p -> B n s p' -> pK p = pK p'.
Proof.
  intros H1 H2. pose proof (B_keys _ _ _ H1) as (_ & _ & O1). pose proof (B_keys _ _ _ H2) as (_ & _ & O2).
  pose proof (B_phase _ _ _ H1) as P1. pose proof (B_phase _ _ _ H2) as P2.
  rewrite O1 in O2. apply (f_equal (@len Z)) in O2. rewrite !len_zrange in O2 by (destruct P1, P2; lia). lia.
Qed.
Lemma K_later n m p : (n <= m)%nat -> B n (S_ n) p -> exists p', B m (S_ m) p' /\ pK p <= pK p'.
Proof.
  intros L HB. induction L as [|m L (p1 & B1 & K1)]; [exists p; split; [exact HB|lia]|].
  destruct (K_step m p1 B1) as (p2 & B2 & K2). exists p2. split; [exact B2|lia].
Qed.

Lemma workers_ok n p t : B n (S_ n) p -> y_mutex (x n) = None -> pget (y_ctl (x n)) t = CIdle -> pend (S_ n) t <> [] -> worker_free c (x n) = true.
Proof.
  intros HB Hm Hi Hp. unfold worker_free. apply Nat.ltb_lt. rewrite workers_sum.
  rewrite (settle_none bp (x n) Hm) in HB, Hp.
  assert (Hs : subscribed c t = true).
  { destruct (subscribed c t) eqn:E; [reflexivity|]. destruct Hp. apply (bi_sub _ _ _ _ _ _ _ _ _ _ _ _ HB t E). }
  pose proof (bi_env _ _ _ _ _ _ _ _ _ _ _ _ HB) as E. pose proof (B_phase _ _ _ HB) as PH.
  assert (Idle : forall t', pend (x n) t' = [] -> busy (pget (y_ctl (x n)) t') = false).
  { intros t' Y. unfold pend in Y. apply app_eq_nil in Y. destruct Y as [Y _]. destruct (pget (y_ctl (x n)) t'); try discriminate; reflexivity. }
  (* before the initial odometry is handled no IMU message is there, after that no initial odometry *)
  assert (One : (pend (x n) TInit = [] /\ (t = TInit -> False)) \/ (pend (x n) TImu = [] /\ (t = TImu -> False) /\ pend (x n) TReg = [] /\ (t = TReg -> False))).
  { destruct (Z.lt_ge_cases (pK p) 0) as [L|L].
    - right. destruct PH as [PH|PH]; [|lia]. pose proof (en_imu_bd _ _ _ _ _ _ _ _ _ _ E) as [U1 U2].
      assert (U : len (on TImu (h n)) = 0) by (destruct (Z.eq_dec (len (on TImu (h n))) 0); [assumption|lia]).
      assert (Y1 : pend (x n) TImu = []).
      { pose proof (en_imu _ _ _ _ _ _ _ _ _ _ E) as Y. rewrite U in Y. rewrite zrange_nil in Y by lia. destruct (pend (x n) TImu); [reflexivity|discriminate]. }
      assert (Y2 : pend (x n) TReg = []).
      { pose proof (en_reg _ _ _ _ _ _ _ _ _ _ E) as Y. pose proof (en_reg_bd _ _ _ _ _ _ _ _ _ _ E). rewrite zrange_nil in Y by lia. destruct (pend (x n) TReg); [reflexivity|discriminate]. }
      conj; auto; intros ->; contradiction.
    - left. pose proof (B_init_idle _ _ _ HB L) as Y. split; [exact Y|]. intros ->. contradiction. }
  assert (Nb : forall t', subscribed c t' = false -> busy (pget (y_ctl (x n)) t') = false).
  { intros t' Ht. apply Idle. apply (bi_sub _ _ _ _ _ _ _ _ _ _ _ _ HB t' Ht). }
  pose proof (Nb TReg) as N1. pose proof (Nb TStereo) as N2. pose proof (Nb TBaro) as N3. cbn [subscribed] in N1, N2, N3.
  assert (Bt : busy (pget (y_ctl (x n)) t) = false) by (rewrite Hi; reflexivity).
  unfold enough_workers in Hpool. unfold b2n.
  destruct One as [[O1 O2]|(O1 & O2 & O3 & O4)];
  [pose proof (Idle _ O1) as Bi; cbn [pget] in Bi, N1, N2, N3; rewrite Bi
  |pose proof (Idle _ O1) as Bi; pose proof (Idle _ O3) as Bj; cbn [pget] in Bi, Bj, N1, N2, N3; rewrite Bi, Bj];
  (destruct t; cbn [pget subscribed] in *; try (exfalso; auto; fail); try rewrite Bt; try rewrite Hs in Hpool;
    destruct (busy (p_i (y_ctl (x n)))), (busy (p_u (y_ctl (x n)))), (busy (p_r (y_ctl (x n)))), (busy (p_s (y_ctl (x n)))), (busy (p_b (y_ctl (x n)))), (c_reg c), (c_stereo c), (c_baro c);
    try (specialize (N1 eq_refl); discriminate); try (specialize (N2 eq_refl); discriminate); try (specialize (N3 eq_refl); discriminate); try discriminate; lia).
Qed.

Lemma served t n p : B n (S_ n) p -> pend (S_ n) t <> [] -> exists m, (n <= m)%nat /\ starts t m.
Proof.
  intros HB Hp.
  assert (Sub : subscribed c t = true).
  { destruct (subscribed c t) eqn:E; [reflexivity|]. destruct Hp. apply (bi_sub _ _ _ _ _ _ _ _ _ _ _ _ HB t E). }
  assert (Idle : forall n p, B n (S_ n) p -> pget (y_ctl (x n)) t = CIdle -> pget (y_q (x n)) t <> [] -> exists m', (n <= m')%nat /\ starts t m').
  { clear n p HB Hp. intros n p HB Ec Hq. destruct (next_move_of t n (Hfair t n)) as (n1 & L & Hb & St).
    - intros m1 L1 _. destruct (freed' m1) as (m2 & L2 & Hm). exists m2. split; [exact L2|]. intros S2. exists (ADispatch t). cbn [sys_step].
      destruct (K_later n m2 p) as (p2 & B2 & K2); [lia|exact HB|].
      destruct (still_q t n m2) as [e Eq]; [lia|exact S2|]. assert (E2 : pget (y_ctl (x m2)) t = CIdle) by (rewrite (still_ctl t n m2) by (auto; lia); exact Ec).
      rewrite (workers_ok m2 p2 t B2 Hm E2).
      2:{ unfold pend. rewrite (settle_none bp _ Hm), E2, Eq. cbn [ctl_msgs app]. destruct (pget (y_q (x n)) t); [congruence|discriminate]. }
      rewrite E2.
      rewrite Eq. destruct (pget (y_q (x n)) t); [congruence|]. eexists. split; reflexivity.
    - pose proof (still_ctl t n n1 L St) as E1. rewrite Ec in E1. pose proof (ex_step _ _ _ _ _ _ Hex n1) as X.
      destruct (acts n1) as [[m1|t'|t'|t'|]|]; cbn [moves] in Hb; try contradiction; subst t'; destruct X as (_ & E & _); cbn in E; rewrite E1 in E; try discriminate.
      destruct (pget (y_q (x n1)) t) as [|m q]; [discriminate|]. destruct (worker_free c (x n1)); [|discriminate]. injection E as E.
      destruct (prelude_ok m).
      + destruct (want_served t (S n1) m LFirst) as (m' & L' & Hs); [rewrite <- E; cbn [y_ctl]; apply pget_upd_eq|]. exists m'. split; [lia|exact Hs].
      + destruct (xnofail (S n1) t false). rewrite <- E. cbn [y_ctl]. apply pget_upd_eq. }
  assert (Rest : forall n p, B n (S_ n) p -> (forall m q, pget (y_ctl (x n)) t <> CRun m q) -> ctl_msgs (pget (y_ctl (x n)) t) ++ pget (y_q (x n)) t <> [] -> exists m', (n <= m')%nat /\ starts t m').
  { clear n p HB Hp. intros n p HB Hr Hp. destruct (pget (y_ctl (x n)) t) as [|m l|m l|m q|lk] eqn:Ec.
    - eapply Idle; eauto.
    - eapply want_served; eauto.
    - eapply hold_served; eauto.
    - destruct (Hr m q eq_refl).
    - destruct (xnofail n t lk Ec). }
  assert (Sq : forall n, y_q (S_ n) = y_q (x n)).
  { clear. intros n. unfold settle. destruct (y_mutex (x n)) as [t0|]; [|reflexivity]. destruct (pget (y_ctl (x n)) t0); try reflexivity.
    unfold complete. destruct (prun bp p (y_g (x n)) (y_log (x n)) (y_ev (x n))) as [[[g lg] e] [o|]]; [destruct o|]; reflexivity. }
  unfold pend in Hp. rewrite Sq in Hp.
  assert (D : (exists m q, pget (y_ctl (x n)) t = CRun m q) \/ (forall m q, pget (y_ctl (x n)) t <> CRun m q)).
  { destruct (pget (y_ctl (x n)) t); try (right; discriminate). left. eauto. }
  destruct D as [(m & q & Ec)|D].
  - destruct (run_out t m q n p Ec HB) as (n' & L & HB' & _ & E1 & (e & E2) & _).
    destruct (Rest n' p HB') as (m' & L' & Hs).
    + intros m0 q0 E. rewrite E1 in E. pose proof (bi_ctl _ _ _ _ _ _ _ _ _ _ _ _ HB t) as Z. rewrite E in Z. exact Z.
    + rewrite E1, E2. rewrite app_assoc. intros Z. apply app_eq_nil in Z. destruct Z. congruence.
    + exists m'. split; [lia|exact Hs].
  - apply (Rest n p HB D). rewrite <- (settle_other bp (x n) t D). exact Hp.
Qed.

(* ---- progress of one key ---- *)
Section Key.
Variable k : Z.
Hypothesis Hk1 : 1 <= k.

Fixpoint pos (l : list msg) : nat := match l with [] => O | m :: l' => if tau k <=? stamp m then O else S (pos l') end.
Lemma pos_app l e : (exists m, In m l /\ tau k <= stamp m) -> pos (l ++ e) = pos l.
Proof.
  induction l as [|y l IH]; intros (m & Hm & Hs); [destruct Hm|]. cbn. destruct (Z.leb_spec (tau k) (stamp y)); [reflexivity|].
  f_equal. apply IH. exists m. split; [|exact Hs]. destruct Hm as [->|Hm]; [lia|exact Hm].
Qed.

Definition rank (s : sys) (p : par) : nat :=
  (Z.to_nat (k - pK p) + Z.to_nat (k - pu p) + Z.to_nat (k - pr p) + (if (k <=? pst p)%Z then 0 else Z.to_nat (k - pst p) + pos (pend s TStereo)))%nat.

Lemma supplied_later n : supplied c tau (h n) k -> supplied c tau (h (S n)) k.
Proof.
  intros H. assert (G : exists e, h (S n) = h n ++ e).
  { pose proof (ex_step _ _ _ _ _ _ Hex n) as X. destruct (acts n) as [[m|t'|t'|t'|]|]; try (destruct X as (_ & _ & X)); try (exists []; rewrite app_nil_r; exact X); eauto.
    - destruct X as (_ & X). exists []. rewrite app_nil_r. exact X. }
  destruct G as [e ->]. destruct H as (H1 & H2 & H3). unfold supplied. rewrite !on_app, !len_app.
  pose proof (len_nonneg (on TImu e)). pose proof (len_nonneg (on TReg e)). conj; try lia.
  - intros E. destruct (H3 E) as (m & Hm & Hs). exists m. split; [apply in_or_app; auto|exact Hs].
Qed.

Lemma stereo_pend n s p : B n s p -> supplied c tau (h n) k -> c_stereo c = true -> pst p < k -> exists m, In m (pend s TStereo) /\ tau k <= stamp m.
Proof.
  intros HB (_ & _ & H3) Es Hl. destruct (H3 Es) as (m & Hm & Hs). pose proof He as (M & _).
  destruct (en_st _ _ _ _ _ _ _ _ _ _ (bi_env _ _ _ _ _ _ _ _ _ _ _ _ HB)) as (don & X1 & X2).
  apply (in_map stamp) in Hm. rewrite X1 in Hm. apply in_app_or in Hm. destruct Hm as [Hm|Hm].
  - exfalso. rewrite Forall_forall in X2. apply X2 in Hm. pose proof (B_phase _ _ _ HB) as PH.
    assert (Hst : -1 <= pst p) by (destruct PH as [PH|PH]; [lia|rewrite Es in PH; lia]).
    destruct (Z.eq_dec (pst p + 1) k) as [E|N]; [rewrite E in Hm; lia|]. assert (tau (pst p + 1) < tau k) by (apply M; lia). lia.
  - apply in_map_iff in Hm. destruct Hm as (m' & E & Hm'). exists m'. split; [exact Hm'|lia].
Qed.

Lemma stereo_off n s p : B n s p -> c_stereo c = false -> pst p = -1 /\ pend s TStereo = [].
Proof.
  intros HB Es. split.
  - pose proof (B_phase _ _ _ HB) as PH. unfold phase in PH. rewrite Es in PH. destruct PH; lia.
  - apply (bi_sub _ _ _ _ _ _ _ _ _ _ _ _ HB TStereo Es).
Qed.

(* the rank never grows, and falls when a section of t that does not sleep is executed on a key still needed *)
Lemma rank_step n p : B n (S_ n) p -> supplied c tau (h n) k -> exists p', B (S n) (S_ (S n)) p' /\ (rank (S_ (S n)) p' <= rank (S_ n) p)%nat /\
  (pK p <= pK p' /\ pu p <= pu p' /\ pst p <= pst p' /\ ((pst p < pst p' /\ pst p < k) \/ (pK p < pK p' /\ pK p < k) \/ (pu p < pu p' /\ pu p < k) -> (rank (S_ (S n)) p' < rank (S_ n) p)%nat)) /\
  (forall t, starts t n -> pK p < k ->
     (t = TImu /\ pK p = pu p) \/ t = TReg \/ (t = TStereo /\ pst p < pu p /\ pst p < k) -> (rank (S_ (S n)) p' < rank (S_ n) p)%nat).
Proof.
  intros HB Sup. destruct (track n p HB) as [(NS & HB' & Elog & Pe)|(t & m & l & p' & St & Eh & ES & Ec & HB' & EC & Adv)].
  - exists p. split; [exact HB'|]. split; [|split; [conj; lia|intros t Hs; destruct (NS t Hs)]]. unfold rank. destruct (Z.leb_spec k (pst p)); [lia|].
    destruct (Pe TStereo) as [e Ee]. rewrite Ee. destruct (c_stereo c) eqn:Es.
    + rewrite pos_app; [lia|]. eapply stereo_pend; eauto.
    + destruct (stereo_off _ _ _ HB' Es) as [_ Z]. rewrite Ee in Z. rewrite Z. cbn. lia.
  - exists p'. split; [exact HB'|].
    assert (HK : pK p <= pK p').
    { destruct (K_step n p HB) as (p2 & B2 & K2). rewrite (B_K_unique _ _ _ _ HB' B2). exact K2. }
    assert (Hpd : pend (S_ n) t = m :: pget (y_q (S_ n)) t) by (unfold pend; rewrite <- ES, Ec; reflexivity).
    destruct (adv_pend _ _ _ _ _ _ _ _ _ Hpd Adv) as (Po & Pt & Hst & Hb).
    pose proof (B_keys _ _ _ HB) as (U1 & R1 & _). pose proof (B_keys _ _ _ HB') as (U2 & R2 & _). rewrite Eh in U2, R2.
    assert (Hu : pu p <= pu p' /\ (t = TImu -> pend (S_ n) t = m :: pend (S_ (S n)) t -> pu p' = pu p + 1)).
    { destruct (tid_dec t TImu) as [->|N]; [|rewrite (Po TImu) in U2 by congruence; split; [lia|congruence]].
      split; [destruct Pt as [Q|Q]; rewrite Q in *; [|rewrite len_cons in U1]; lia|]. intros _ Q. rewrite Q, len_cons in U1. lia. }
    assert (Hr : pr p <= pr p' /\ (t = TReg -> pend (S_ n) t = m :: pend (S_ (S n)) t -> pr p' = pr p + 1)).
    { destruct (tid_dec t TReg) as [->|N]; [|rewrite (Po TReg) in R2 by congruence; split; [lia|congruence]].
      split; [destruct Pt as [Q|Q]; rewrite Q in *; [|rewrite len_cons in R1]; lia|]. intros _ Q. rewrite Q, len_cons in R1. lia. }
    destruct Hu as [Hu Hu']. destruct Hr as [Hr Hr'].
    (* the stereo part *)
    set (f := fun s p => (if (k <=? pst p)%Z then 0 else Z.to_nat (k - pst p) + pos (pend s TStereo))%nat).
    assert (Hf : (f (S_ (S n)) p' <= f (S_ n) p)%nat /\ (pst p < k -> t = TStereo -> (pst p < pst p' \/ pend (S_ n) t = m :: pend (S_ (S n)) t) -> (f (S_ (S n)) p' < f (S_ n) p)%nat) /\ (pst p < pst p' -> pst p < k -> (f (S_ (S n)) p' < f (S_ n) p)%nat)).
    { unfold f. destruct (Z.leb_spec k (pst p)); [replace (k <=? pst p') with true by lia; conj; intros; lia|].
      destruct (Z.leb_spec k (pst p')); [conj; intros; lia|].
      destruct (tid_dec t TStereo) as [->|N]; [|rewrite (Po TStereo) by congruence; conj; [lia|congruence|intros; lia]].
      destruct Pt as [Q|Q].
      - rewrite Q. split; [lia|]. split; [|intros; lia]. intros _ _ [Z|Z]; [lia|]. exfalso. apply (f_equal (@List.length msg)) in Z. cbn in Z. lia.
      - assert (Hs : pos (pend (S_ n) TStereo) = S (pos (pend (S_ (S n)) TStereo))).
        { rewrite Q. cbn [pos]. destruct (Z.leb_spec (tau k) (stamp m)) as [Z|Z]; [exfalso|reflexivity].
          (* the message at or after tau k was consumed, so the stereo key has reached k *)
          pose proof (bi_env _ _ _ _ _ _ _ _ _ _ _ _ HB) as E1. pose proof (bi_env _ _ _ _ _ _ _ _ _ _ _ _ HB') as E2.
          destruct (en_st _ _ _ _ _ _ _ _ _ _ E1) as (d1 & X1 & _). destruct (en_st _ _ _ _ _ _ _ _ _ _ E2) as (d2 & X2 & F2).
          rewrite Eh in X2. rewrite X2, Q in X1. cbn [map] in X1. assert (Ed : d2 = d1 ++ [stamp m]).
          { apply (app_inv_tail (map stamp (pend (S_ (S n)) TStereo))). rewrite X1, <- app_assoc. reflexivity. }
          rewrite Ed in F2. apply Forall_app in F2. destruct F2 as [_ F2]. inversion F2 as [|? ? F3 _]. pose proof He as (M & _).
          pose proof (B_phase _ _ _ HB') as PH. assert (Es : c_stereo c = true).
          { destruct (c_stereo c) eqn:Es; [reflexivity|]. destruct (stereo_off _ _ _ HB Es) as [_ W]. rewrite W in Q. discriminate. }
          assert (Hs : -1 <= pst p') by (destruct PH as [PH|PH]; [lia|rewrite Es in PH; lia]).
          destruct (Z.eq_dec (pst p' + 1) k) as [W|W]; [rewrite W in F3; lia|]. assert (tau (pst p' + 1) < tau k) by (apply M; lia). lia. }
        rewrite Hs. conj; intros; lia. }
    destruct Hf as (Hf & Hf' & Hf2). fold (f (S_ n) p) in *. unfold rank. fold (f (S_ n) p). fold (f (S_ (S n)) p'). split; [lia|]. split. { conj; try lia. }
    intros t' [Ea' (m' & l' & Ec')] HKk Cases. destruct St as [Ea _]. rewrite Ea in Ea'. injection Ea' as <-.
    assert (HK0 : 0 <= pK p).
    { pose proof (en_imu_bd _ _ _ _ _ _ _ _ _ _ (bi_env _ _ _ _ _ _ _ _ _ _ _ _ HB)) as [_ Z]. apply Z. destruct Sup as [Z1 _]. lia. }
    pose proof (B_phase _ _ _ HB) as PH. destruct PH as [PH|PH]; [lia|].
    assert (NoSleep : forall l0, prun bp (section c (y_ok (S_ n)) m l) (y_g (S_ n)) (y_log (S_ n)) (y_ev (S_ n)) = (y_g (S_ n), y_log (S_ n), y_ev (S_ n), ROut (OSleep l0)) -> False).
    { intros l0 EP. destruct (sleeps bp c tau _ _ _ _ _ _ _ _ _ _ _ _ _ _ He HB Hpd EP) as [[-> Z]|[(-> & _ & Z)|[-> _]]].
      - destruct Cases as [[_ Y]|[Y|[Y _]]]; [congruence|discriminate|discriminate].
      - destruct Cases as [[Y _]|[Y|(_ & Y & _)]]; [discriminate|discriminate|]. rewrite nn_pos in Z by exact HK0. lia.
      - destruct Cases as [[Y _]|[Y|(Y & _)]]; discriminate. }
    assert (Out : pend (S_ n) t = m :: pend (S_ (S n)) t \/ (t = TStereo /\ pst p < pst p') \/ t = TBaro).
    { destruct Adv as [l0 _ _ _ EP|Fc Fq _ _ _|l0 _ _ _ _ _ _ Z]; [destruct (NoSleep _ EP)| |right; exact Z].
      left. rewrite Hpd. unfold pend. rewrite Fc, Fq, pget_upd_eq. reflexivity. }
    destruct Cases as [[-> Y]|[->|(-> & Y & Y')]].
    + destruct Out as [O|[[O _]|O]]; [|discriminate|discriminate]. specialize (Hu' eq_refl O). lia.
    + destruct Out as [O|[[O _]|O]]; [|discriminate|discriminate]. specialize (Hr' eq_refl O).
      assert (c_reg c = true).
      { destruct (c_reg c) eqn:Er; [reflexivity|]. pose proof (bi_sub _ _ _ _ _ _ _ _ _ _ _ _ HB TReg Er) as W. rewrite W in Hpd. discriminate. }
      assert (pr p < k).
      { rewrite H in PH. pose proof (B_phase _ _ _ HB') as PH'. unfold phase in PH'. rewrite H in PH'. destruct PH' as [PH'|PH']; [lia|].
        rewrite (Po TImu) in U2 by discriminate. lia. }
      lia.
    + specialize (Hf' Y' eq_refl). destruct Out as [O|[[_ O]|O]]; [| |discriminate]; specialize (Hf' ltac:(auto)); lia.
Qed.

Lemma rank_later n m p : (n <= m)%nat -> B n (S_ n) p -> supplied c tau (h n) k ->
  exists p', B m (S_ m) p' /\ (rank (S_ m) p' <= rank (S_ n) p)%nat /\ supplied c tau (h m) k /\
    pK p <= pK p' /\ pu p <= pu p' /\ pst p <= pst p' /\ ((pst p < pst p' /\ pst p < k) \/ (pK p < pK p' /\ pK p < k) \/ (pu p < pu p' /\ pu p < k) -> (rank (S_ m) p' < rank (S_ n) p)%nat).
Proof.
  intros L HB Sup. induction L as [|m L (p1 & B1 & R1 & S1 & K1 & U1 & T1 & D1)]; [exists p; conj; auto; lia|].
  destruct (rank_step m p1 B1 S1) as (p2 & B2 & R2 & (K2 & U2 & T2 & D2) & _). exists p2. conj; auto; try lia.
  apply supplied_later. exact S1.
Qed.

(* the key parameters are determined by the state *)
Lemma B_unique n s p p' : B n s p -> B n s p' -> pK p = pK p' /\ pu p = pu p' /\ pr p = pr p' /\ pst p = pst p'.
Proof.
  intros H1 H2. pose proof (B_keys _ _ _ H1) as (U1 & R1 & _). pose proof (B_keys _ _ _ H2) as (U2 & R2 & _). conj; try lia.
  - eapply B_K_unique; eauto.
  - pose proof (lv_incs _ _ _ _ _ _ _ (rs_log _ _ _ _ _ _ _ _ _ _ _ _ _ (bi_rest _ _ _ _ _ _ _ _ _ _ _ _ H1))) as I1.
    pose proof (lv_incs _ _ _ _ _ _ _ (rs_log _ _ _ _ _ _ _ _ _ _ _ _ _ (bi_rest _ _ _ _ _ _ _ _ _ _ _ _ H2))) as I2. lia.
Qed.

Lemma reaches : forall R n p, B n (S_ n) p -> supplied c tau (h n) k -> (rank (S_ n) p <= R)%nat -> exists m p', (n <= m)%nat /\ B m (S_ m) p' /\ k <= pK p'.
Proof.
  induction R as [R IH] using lt_wf_ind. intros n p HB Sup HR.
  destruct (Z.le_gt_cases k (pK p)) as [D|D]; [exists n, p; auto|].
  assert (HK0 : 0 <= pK p).
  { pose proof (en_imu_bd _ _ _ _ _ _ _ _ _ _ (bi_env _ _ _ _ _ _ _ _ _ _ _ _ HB)) as [_ Z]. apply Z. destruct Sup as [Z1 _]. lia. }
  (* a thread whose next section lowers the rank *)
  assert (Go : forall t, pend (S_ n) t <> [] ->
     (forall m p', (n <= m)%nat -> B m (S_ m) p' -> pK p' = pK p -> pu p <= pu p' -> (pst p < k -> pst p' = pst p) -> (t = TImu -> pu p' = pK p') ->
        (t = TImu /\ pK p' = pu p') \/ t = TReg \/ (t = TStereo /\ pst p' < pu p' /\ pst p' < k)) ->
     (t = TImu -> pu p = pK p) ->
     exists m p', (n <= m)%nat /\ B m (S_ m) p' /\ k <= pK p').
  { intros t Hpd Hc Hi. destruct (served t n p HB Hpd) as (m & L & Hs).
    destruct (rank_later n m p L HB Sup) as (p1 & B1 & R1 & S1 & K1 & U1 & T1 & D1).
    destruct (Nat.eq_dec (rank (S_ m) p1) (rank (S_ n) p)) as [ER|NR].
    - destruct (Z.le_gt_cases k (pK p1)) as [D2|D2]; [exists m, p1; auto|].
      destruct (rank_step m p1 B1 S1) as (p2 & B2 & _ & _ & R2). specialize (R2 t Hs D2).
      assert (pK p1 = pK p) by lia.
      assert (t = TImu -> pu p1 = pK p1) by (intros W; specialize (Hi W); lia).
      specialize (R2 (Hc m p1 L B1 H U1 ltac:(lia) ltac:(assumption))).
      destruct (IH (rank (S_ (S m)) p2) ltac:(lia) (S m) p2 B2 (supplied_later m S1) ltac:(lia)) as (m' & p' & L' & B' & K'). exists m', p'. conj; auto. lia.
    - destruct (IH (rank (S_ m) p1) ltac:(lia) m p1 B1 S1 ltac:(lia)) as (m' & p' & L' & B' & K'). exists m', p'. conj; auto. lia. }
  pose proof (bi_env _ _ _ _ _ _ _ _ _ _ _ _ HB) as E. pose proof Sup as (Si & Sr & Ss).
  pose proof (B_phase _ _ _ HB) as PH. destruct PH as [PH|(_ & PU & PI & PR & PS & PB & PN)]; [lia|].
  destruct (Z.eq_dec (pK p) (pu p)) as [EK|NK].
  - apply (Go TImu); [| |auto].
    + intros Z. pose proof (en_imu _ _ _ _ _ _ _ _ _ _ E) as X. rewrite Z in X. rewrite zrange_cons in X by lia. discriminate.
    + intros m p' _ _ _ _ _ Z. left. split; [reflexivity|]. symmetry. auto.
  - destruct PN as [[Er PN]|[Es PN]]; [lia| |].
    + rewrite Er in PR. specialize (Sr Er). apply (Go TReg); [|auto|discriminate].
      intros Z. pose proof (en_reg _ _ _ _ _ _ _ _ _ _ E) as X. rewrite Z in X. rewrite zrange_cons in X by lia. discriminate.
    + rewrite Es in PS. apply (Go TStereo); [| |discriminate].
      * intros Z. destruct (stereo_pend _ _ _ HB Sup Es ltac:(lia)) as (m & Hm & _). rewrite Z in Hm. destruct Hm.
      * intros m p' _ B' EK' U' T' _. right. right. split; [reflexivity|]. rewrite T' by lia. lia.
Qed.
End Key.

Lemma progress n k : supplied c tau (h n) k -> exists m, (n <= m)%nat /\ y_mutex (x m) = None /\ In k (opts (y_log (x m))).
Proof.
  intros Sup. assert (Hk : 1 <= k) by (destruct Sup; lia). destruct (xB n) as [p HB].
  destruct (reaches k Hk (rank k (S_ n) p) n p HB Sup ltac:(lia)) as (m & p' & L & B' & K').
  destruct (freed' m) as (m2 & L2 & Hm). destruct (K_later m m2 p' L2 B') as (p2 & B2 & K2). exists m2. conj; [lia|exact Hm|].
  rewrite (settle_none bp _ Hm) in B2. pose proof (B_keys _ _ _ B2) as (_ & _ & O). rewrite O. apply in_zrange. lia.
Qed.
End Fair.
Lemma fair_progress bp c tau x acts h : environment c tau -> execution bp c tau x acts h -> strongly_fair bp c x acts -> enough_workers c ->
  forall n k, supplied c tau (h n) k -> exists m, (n <= m)%nat /\ y_mutex (x m) = None /\ In k (opts (y_log (x m))).
Proof. intros He Hex Hfair. exact (progress bp c tau x acts h He Hex (strongly_run bp c x acts Hfair) Hfair). Qed.
