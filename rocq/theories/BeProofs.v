(* Mutual exclusion and serialisability of the back end. *)
From Verif Require Import Base GmModel GmSpec GmInv BeModel BeSpec.


Lemma pget_upd_eq {A} (f : per A) t a : pget (upd f t a) t = a.
Proof. destruct t; reflexivity. Qed.
Lemma pget_upd_ne {A} (f : per A) t t' a : t' <> t -> pget (upd f t a) t' = pget f t'.
Proof. destruct t, t'; try reflexivity; congruence. Qed.
Lemma upd_upd {A} (f : per A) t a b : upd (upd f t a) t b = upd f t b.
Proof. destruct t; reflexivity. Qed.
Lemma upd_comm {A} (f : per A) t t' a b : t <> t' -> upd (upd f t a) t' b = upd (upd f t' b) t a.
Proof. destruct t, t'; try reflexivity; congruence. Qed.
Lemma tid_dec (t t' : tid) : {t = t'} + {t <> t'}.
Proof. decide equality. Qed.

Arguments worker_free : simpl never.
Arguments workers : simpl never.
Arguments settle : simpl never.

Section Proofs.
Variable bp : Z -> Z -> Z -> Z -> Z.
Variable c : config.

Definition in_section (x : ctl) : Prop := match x with CHold _ _ | CRun _ _ => True | _ => False end.

Record excl (s : sys) : Prop := {
  ex_owner : forall t, in_section (pget (y_ctl s) t) -> y_mutex s = Some t;
  ex_held : forall t, y_mutex s = Some t -> in_section (pget (y_ctl s) t) \/ pget (y_ctl s) t = CFail true;
  ex_log : y_g s = gm_run bp igm_init (y_log s) }.

Ltac tcase t t' := destruct (tid_dec t t') as [?|?]; [subst|];
  rewrite ?pget_upd_eq in *; try (rewrite pget_upd_ne in * by congruence).

Lemma excl_init : excl (sys_init bp c).
Proof.
  constructor; cbn.
  - intros t; destruct t; cbn; tauto.
  - discriminate.
  - reflexivity.
Qed.

(* replacing the control state of t, which is inside a section *)
Lemma finish_excl s t m o : excl s -> in_section (pget (y_ctl s) t) -> excl (finish s t m o).
Proof.
  intros [HO HH HL] Hin. pose proof (HO _ Hin) as Hm.
  destruct o; constructor; cbn; try assumption.
  all: try (intros t' Ht'; tcase t' t; cbn in *; try tauto; try congruence;
            try (apply HO in Ht'; congruence); auto).
Qed.

Lemma throws_excl s t m : excl s -> in_section (pget (y_ctl s) t) -> excl (throws s t m).
Proof.
  intros [HO HH HL] Hin. pose proof (HO _ Hin) as Hm.
  unfold throws. destruct (raii m); constructor; cbn; try assumption; try discriminate.
  - intros t' Ht'; tcase t' t; cbn in *; try tauto. apply HO in Ht'; congruence.
  - intros t' Ht'; tcase t' t; cbn in *; try tauto. apply HO in Ht'; congruence.
  - intros t' Ht'. rewrite Hm in Ht'. injection Ht' as <-. rewrite pget_upd_eq. cbn. auto.
Qed.

Lemma run_snoc ops op : gm_run bp igm_init (ops ++ [op]) = fst (gm_step bp (gm_run bp igm_init ops) op).
Proof. rewrite gm_run_app. reflexivity. Qed.

(* changing graph, log and events of a state, with the section of t going on *)
Lemma change_excl s t g log ev x : excl s -> in_section (pget (y_ctl s) t) -> in_section x ->
  g = gm_run bp igm_init log ->
  excl (mkSys g log ev (y_mutex s) (upd (y_ctl s) t x) (y_q s) (y_ok s)).
Proof.
  intros [HO HH HL] Hin Hx Hg. pose proof (HO _ Hin) as Hm.
  constructor; cbn; try assumption.
  - intros t' Ht'; tcase t' t; auto.
  - intros t' Ht'. rewrite Hm in Ht'. injection Ht' as <-. rewrite pget_upd_eq. auto.
Qed.

Lemma micro_excl s t m p : excl s -> pget (y_ctl s) t = CRun m p -> excl (micro bp s t m p).
Proof.
  intros E Ht. assert (Hin : in_section (pget (y_ctl s) t)) by (rewrite Ht; exact I).
  pose proof (ex_log _ E) as HL.
  destruct p as [o| |op k|k|e k]; cbn.
  - apply finish_excl; assumption.
  - apply throws_excl; assumption.
  - destruct (gm_step bp (y_g s) op) as [g r] eqn:Eg.
    assert (Hg : g = gm_run bp igm_init (y_log s ++ [op])) by (rewrite run_snoc, <- HL, Eg; reflexivity).
    assert (E' : excl (mkSys g (y_log s ++ [op]) (y_ev s) (y_mutex s) (upd (y_ctl s) t (CRun m k)) (y_q s) (y_ok s)))
      by (apply change_excl; auto; exact I).
    destruct r; [exact E'| |]; apply throws_excl; auto; cbn; rewrite pget_upd_eq; exact I.
  - apply change_excl; auto; exact I.
  - apply change_excl; auto; exact I.
Qed.

Lemma step_excl s a s' : excl s -> sys_step bp c s a = Some s' -> excl s'.
Proof.
  intros E. pose proof E as [HO HH HL]. destruct a as [m|t|t|t|]; cbn; intros H.
  - destruct (subscribed c (msg_tid m)); [|discriminate]. injection H as <-. constructor; assumption.
  - destruct (pget (y_ctl s) t) eqn:Et; try discriminate.
    destruct (pget (y_q s) t); [discriminate|].
    destruct (worker_free c s); [|discriminate]. injection H as <-.
    constructor; cbn; try assumption.
    + intros t' Ht'; tcase t' t; auto. destruct (prelude_ok m); destruct Ht'.
    + intros t' Ht'. specialize (HH _ Ht'). tcase t' t; auto. rewrite Et in HH. destruct HH as [[]|]; discriminate.
  - destruct (pget (y_ctl s) t) eqn:Et; try discriminate.
    destruct (y_mutex s) eqn:Em; [discriminate|]. injection H as <-.
    constructor; cbn; try assumption.
    + intros t' Ht'; tcase t' t; auto. apply HO in Ht'. congruence.
    + intros t' [= <-]. rewrite pget_upd_eq. cbn. auto.
  - destruct (pget (y_ctl s) t) eqn:Et; try discriminate; injection H as <-.
    + apply change_excl; auto; [rewrite Et|]; exact I.
    + apply micro_excl; auto.
  - injection H as <-. constructor; assumption.
Qed.

Lemma run_excl acts s s' : excl s -> sys_run bp c s acts = Some s' -> excl s'.
Proof.
  revert s. induction acts as [|a acts IH]; cbn; intros s E H.
  - injection H as <-. exact E.
  - destruct (sys_step bp c s a) eqn:Es; [|discriminate]. eapply IH; [|exact H]. eapply step_excl; eauto.
Qed.

Lemma reachable_excl s : reachable bp c s -> excl s.
Proof. intros [acts H]. eapply run_excl; [apply excl_init | exact H]. Qed.

Lemma mutual_exclusion s t t' : reachable bp c s ->
  in_section (pget (y_ctl s) t) -> in_section (pget (y_ctl s) t') -> t = t'.
Proof.
  intros R H H'. apply reachable_excl in R. destruct R as [HO _ _].
  apply HO in H. apply HO in H'. congruence.
Qed.

(* the graph, the log and the publications change only in a step of the mutex owner *)
Lemma only_owner s a s' : reachable bp c s -> sys_step bp c s a = Some s' ->
  (y_g s', y_log s', y_ev s') <> (y_g s, y_log s, y_ev s) ->
  exists t, a = AStep t /\ y_mutex s = Some t.
Proof.
  intros R H Hd. apply reachable_excl in R. destruct R as [HO _ _].
  destruct a as [m|t|t|t|]; cbn in H.
  - destruct (subscribed c (msg_tid m)); [|discriminate]. injection H as <-. cbn in Hd. congruence.
  - destruct (pget (y_ctl s) t) eqn:Et; try discriminate.
    destruct (pget (y_q s) t); [discriminate|].
    destruct (worker_free c s); [|discriminate]. injection H as <-. cbn in Hd. congruence.
  - destruct (pget (y_ctl s) t) eqn:Et; try discriminate.
    destruct (y_mutex s) eqn:Em; [discriminate|]. injection H as <-. cbn in Hd. congruence.
  - exists t. split; [reflexivity|]. apply HO.
    destruct (pget (y_ctl s) t); try discriminate; exact I.
  - injection H as <-. cbn in Hd. congruence.
Qed.

(* ---- serialisability ---- *)
Lemma settle_run s t m p : y_mutex s = Some t -> pget (y_ctl s) t = CRun m p -> settle bp s = complete bp s t m p.
Proof. intros H1 H2. unfold settle. rewrite H1, H2. reflexivity. Qed.

Lemma settle_id s : (forall t m p, y_mutex s = Some t -> pget (y_ctl s) t <> CRun m p) -> settle bp s = s.
Proof.
  intros H. unfold settle. destruct (y_mutex s) as [t|] eqn:Em; [|reflexivity].
  destruct (pget (y_ctl s) t) eqn:Et; try reflexivity. exfalso. eapply H; eauto.
Qed.

(* a step inside a section does not change where the section ends *)
Lemma micro_settle s t m p : excl s -> pget (y_ctl s) t = CRun m p -> settle bp (micro bp s t m p) = settle bp s.
Proof.
  intros E Ht. assert (Hin : in_section (pget (y_ctl s) t)) by (rewrite Ht; exact I).
  pose proof (ex_owner _ E _ Hin) as Hm.
  rewrite (settle_run s t m p Hm Ht). unfold complete.
  destruct p as [o| |op k|k|e k]; cbn.
  - destruct s as [g log ev mu ct q ok]; cbn in *. subst mu.
    destruct o; cbn; unfold settle; cbn; rewrite ?pget_upd_eq; reflexivity.
  - destruct s as [g log ev mu ct q ok]; cbn in *. subst mu.
    unfold throws, settle; cbn. destruct (raii m); cbn; rewrite ?pget_upd_eq; reflexivity.
  - destruct (gm_step bp (y_g s) op) as [g r] eqn:Eg.
    destruct r; cbn.
    + erewrite settle_run with (p := k); cbn; [|exact Hm|apply pget_upd_eq].
      unfold complete; cbn. destruct (prun bp k g (y_log s ++ [op]) (y_ev s)) as [[[g' l'] e'] r'].
      destruct r' as [o|]; [destruct o|]; unfold throws; cbn; rewrite upd_upd; reflexivity.
    + unfold throws; cbn. rewrite upd_upd. unfold settle; cbn. rewrite Hm.
      destruct (raii m); cbn; [reflexivity|]. rewrite pget_upd_eq. reflexivity.
    + unfold throws; cbn. rewrite upd_upd. unfold settle; cbn. rewrite Hm.
      destruct (raii m); cbn; [reflexivity|]. rewrite pget_upd_eq. reflexivity.
  - erewrite settle_run with (p := k (y_g s)); cbn; [|exact Hm|apply pget_upd_eq].
    unfold complete; cbn. destruct (prun bp (k (y_g s)) (y_g s) (y_log s) (y_ev s)) as [[[g' l'] e'] r'].
    destruct r' as [o|]; [destruct o|]; unfold throws; cbn; rewrite upd_upd; reflexivity.
  - erewrite settle_run with (p := k); cbn; [|exact Hm|apply pget_upd_eq].
    unfold complete; cbn. destruct (prun bp k (y_g s) (y_log s) (y_ev s ++ [e])) as [[[g' l'] e'] r'].
    destruct r' as [o|]; [destruct o|]; unfold throws; cbn; rewrite upd_upd; reflexivity.
Qed.

Lemma busy_upd_le s f : (forall t, busy (pget f t) = true -> busy (pget (y_ctl s) t) = true) ->
  (List.length (filter (fun t => busy (pget f t)) all_tids) <= workers s)%nat.
Proof.
  intros H. unfold workers. generalize all_tids as l. induction l as [|t l IH]; cbn; [lia|].
  destruct (busy (pget f t)) eqn:E1.
  - rewrite (H t E1). cbn. lia.
  - destruct (busy (pget (y_ctl s) t)); cbn; lia.
Qed.

(* settle of a state in which thread t is inside a section: only t's control state, the graph, log,
   events and mutex differ *)
Lemma settle_shape s t m p : y_mutex s = Some t -> pget (y_ctl s) t = CRun m p ->
  exists g log ev mu x, settle bp s = mkSys g log ev mu (upd (y_ctl s) t x) (y_q s) (y_ok s) /\
    (forall q' c' ok', pget c' t = CRun m p ->
       settle bp (mkSys (y_g s) (y_log s) (y_ev s) (Some t) c' q' ok') = mkSys g log ev mu (upd c' t x) q' ok').
Proof.
  intros Hm Ht. rewrite (settle_run s t m p Hm Ht). unfold complete.
  destruct (prun bp p (y_g s) (y_log s) (y_ev s)) as [[[g l] e] r] eqn:Er.
  exists g, l, e.
  destruct r as [o|]; [destruct o|]; cbn; unfold throws; cbn; do 2 eexists; (split; [reflexivity|]);
    intros q' c' ok' Hc; unfold settle; cbn; rewrite Hc; unfold complete; cbn; rewrite Er, ?Hm; reflexivity.
Qed.

Definition ser_of (a : act) : sact :=
  match a with ADeliver m => SDeliver m | ADispatch t => SDispatch t | ALock t => SLock t | AStep t => SSection t | AShutdown => SShutdown end.

Lemma step_settle s a s' : excl s -> sys_step bp c s a = Some s' ->
  ((exists t m p, a = AStep t /\ pget (y_ctl s) t = CRun m p) /\ settle bp s' = settle bp s) \/
  ser_step bp c (settle bp s) (ser_of a) = Some (settle bp s').
Proof.
  intros E H. pose proof E as [HO HH HL].
  destruct a as [m|t|t|t|].
  - (* deliver *)
    right. cbn in *. destruct (subscribed c (msg_tid m)) eqn:Es; [|discriminate]. injection H as <-.
    destruct (y_mutex s) as [t0|] eqn:Em.
    + destruct (pget (y_ctl s) t0) eqn:Et.
      1,2,3,5: rewrite !settle_id; cbn; rewrite ?Em; [reflexivity| |]; intros ? ? ? [= <-]; cbn; rewrite Et; discriminate.
      destruct (settle_shape s t0 m0 p Em Et) as (g & log & ev & mu & x & E1 & E2).
      rewrite E1; cbn. f_equal. rewrite E2 by exact Et. reflexivity.
    + rewrite !settle_id; cbn; rewrite ?Em; [reflexivity| |]; intros; discriminate.
  - (* dispatch *)
    right. cbn in *.
    destruct (pget (y_ctl s) t) eqn:Ec; try discriminate.
    destruct (pget (y_q s) t) as [|m q] eqn:Eq; [discriminate|].
    destruct (worker_free c s) eqn:Ew; [|discriminate]. injection H as <-.
    destruct (y_mutex s) as [t0|] eqn:Em.
    + assert (Hne : t <> t0).
      { intros ->. destruct (HH t0 eq_refl) as [Hi|Hi]; rewrite Ec in Hi; [destruct Hi|discriminate]. }
      destruct (pget (y_ctl s) t0) eqn:Et.
      1,2,3,5: rewrite !settle_id; cbn; rewrite ?Em, ?Ec, ?Eq, ?Ew; [reflexivity| |]; intros ? ? ? [= <-]; cbn;
        rewrite ?pget_upd_ne by congruence; rewrite Et; discriminate.
      destruct (settle_shape s t0 m0 p Em Et) as (g & log & ev & mu & x & E1 & E2).
      rewrite E1; cbn. rewrite pget_upd_ne by congruence. rewrite Ec, Eq.
      assert (Hw : worker_free c (mkSys g log ev mu (upd (y_ctl s) t0 x) (y_q s) (y_ok s)) = true).
      { unfold worker_free in *. apply Nat.ltb_lt in Ew. apply Nat.ltb_lt. eapply Nat.le_lt_trans; [|exact Ew].
        unfold workers at 1; cbn [y_ctl]. apply (busy_upd_le s).
        intros t'. destruct (tid_dec t' t0) as [->|Hn].
        - intros _. rewrite Et. reflexivity.
        - rewrite pget_upd_ne by assumption. auto. }
      rewrite Hw. f_equal. rewrite E2.
      * rewrite upd_comm by congruence. reflexivity.
      * rewrite pget_upd_ne by congruence. exact Et.
    + rewrite !settle_id; cbn; rewrite ?Em, ?Ec, ?Eq, ?Ew; [reflexivity| |]; intros; discriminate.
  - (* lock *)
    right. cbn in *.
    destruct (pget (y_ctl s) t) eqn:Ec; try discriminate.
    destruct (y_mutex s) eqn:Em; [discriminate|]. injection H as <-.
    rewrite !settle_id; cbn; rewrite ?Em, ?Ec; [reflexivity| |].
    + intros ? ? ? [= <-]. rewrite pget_upd_eq. discriminate.
    + intros; discriminate.
  - cbn in H. destruct (pget (y_ctl s) t) eqn:Ec; try discriminate; injection H as <-.
    + (* section start *)
      right.
      assert (Hm : y_mutex s = Some t) by (apply HO; rewrite Ec; exact I).
      rewrite (settle_id s).
      2:{ rewrite Hm. intros ? ? ? [= <-]. rewrite Ec. discriminate. }
      cbn. rewrite Ec. f_equal.
      erewrite settle_run; cbn; [|exact Hm|apply pget_upd_eq].
      unfold complete; cbn.
      destruct (prun bp (section c (y_ok s) m l) (y_g s) (y_log s) (y_ev s)) as [[[g' l'] e'] r'].
      destruct r' as [o|]; [destruct o|]; unfold throws; cbn; rewrite ?upd_upd; reflexivity.
    + left. split; [eauto|]. apply micro_settle; assumption.
  - (* shutdown *)
    right. cbn in *. injection H as <-.
    destruct (y_mutex s) as [t0|] eqn:Em.
    + destruct (pget (y_ctl s) t0) eqn:Et.
      1,2,3,5: rewrite !settle_id; cbn; rewrite ?Em; [reflexivity| |]; intros ? ? ? [= <-]; cbn; rewrite Et; discriminate.
      destruct (settle_shape s t0 m p Em Et) as (g & log & ev & mu & x & E1 & E2).
      rewrite E1; cbn. f_equal. rewrite E2 by exact Et. reflexivity.
    + rewrite !settle_id; cbn; rewrite ?Em; [reflexivity| |]; intros; discriminate.
Qed.

Lemma ser_run_app s l1 l2 : ser_run bp c s (l1 ++ l2) =
  match ser_run bp c s l1 with Some s' => ser_run bp c s' l2 | None => None end.
Proof.
  revert s. induction l1 as [|a l1 IH]; cbn; intros s; [reflexivity|].
  destruct (ser_step bp c s a); [apply IH|reflexivity].
Qed.

Lemma sys_run_app s l1 l2 : sys_run bp c s (l1 ++ l2) =
  match sys_run bp c s l1 with Some s' => sys_run bp c s' l2 | None => None end.
Proof.
  revert s. induction l1 as [|a l1 IH]; cbn; intros s; [reflexivity|].
  destruct (sys_step bp c s a); [apply IH|reflexivity].
Qed.

(* every interleaved execution is equivalent to one in which sections run without interruption *)
Lemma serialisable s : reachable bp c s -> ser_reachable bp c (settle bp s).
Proof.
  intros [acts H]. revert s H. induction acts as [|a acts IH] using rev_ind; intros s H.
  - cbn in H. injection H as <-. exists []. cbn. reflexivity.
  - rewrite sys_run_app in H. destruct (sys_run bp c (sys_init bp c) acts) as [s1|] eqn:E1; [|discriminate].
    cbn in H. destruct (sys_step bp c s1 a) as [s2|] eqn:E2; [|discriminate]. injection H as <-.
    destruct (IH _ eq_refl) as [l Hl].
    assert (X : excl s1) by (apply reachable_excl; exists acts; exact E1).
    destruct (step_settle s1 a s2 X E2) as [[_ ->]|Hb].
    + exists l. exact Hl.
    + exists (l ++ [ser_of a]). rewrite ser_run_app, Hl. cbn. rewrite Hb. reflexivity.
Qed.

(* conversely every serial execution is an interleaved one *)
Lemma complete_reach p s t m : excl s -> pget (y_ctl s) t = CRun m p ->
  exists acts, sys_run bp c s acts = Some (complete bp s t m p).
Proof.
  revert s. induction p as [o| |op k IH|k IH|e k IH]; intros s E Ht.
  1,2: exists [AStep t]; cbn; rewrite Ht; unfold complete; cbn; destruct s; reflexivity.
  - assert (X : excl (micro bp s t m (PCall op k))) by (apply micro_excl; assumption).
    destruct (gm_step bp (y_g s) op) as [g r] eqn:Eg.
    destruct r as [o| |].
    + destruct (IH (micro bp s t m (PCall op k)) X) as [acts Ha].
      { cbn. rewrite Eg. cbn. apply pget_upd_eq. }
      exists (AStep t :: acts). cbn [sys_run sys_step]. rewrite Ht, Ha. f_equal.
      unfold complete; cbn. rewrite Eg; cbn.
      destruct (prun bp k g (y_log s ++ [op]) (y_ev s)) as [[[g' l'] e'] r'].
      destruct r' as [o'|]; [destruct o'|]; unfold throws; cbn; rewrite ?upd_upd; reflexivity.
    + exists [AStep t]. cbn. rewrite Ht. cbn. rewrite Eg. unfold complete; cbn. rewrite Eg.
      unfold throws; cbn. rewrite upd_upd. reflexivity.
    + exists [AStep t]. cbn. rewrite Ht. cbn. rewrite Eg. unfold complete; cbn. rewrite Eg.
      unfold throws; cbn. rewrite upd_upd. reflexivity.
  - assert (X : excl (micro bp s t m (PRead k))) by (apply micro_excl; assumption).
    destruct (IH (y_g s) (micro bp s t m (PRead k)) X) as [acts Ha]; [cbn; apply pget_upd_eq|].
    exists (AStep t :: acts). cbn [sys_run sys_step]. rewrite Ht, Ha. f_equal.
    unfold complete; cbn.
    destruct (prun bp (k (y_g s)) (y_g s) (y_log s) (y_ev s)) as [[[g' l'] e'] r'].
    destruct r' as [o'|]; [destruct o'|]; unfold throws; cbn; rewrite ?upd_upd; reflexivity.
  - assert (X : excl (micro bp s t m (PEmit e k))) by (apply micro_excl; assumption).
    destruct (IH (micro bp s t m (PEmit e k)) X) as [acts Ha]; [cbn; apply pget_upd_eq|].
    exists (AStep t :: acts). cbn [sys_run sys_step]. rewrite Ht, Ha. f_equal.
    unfold complete; cbn.
    destruct (prun bp k (y_g s) (y_log s) (y_ev s ++ [e])) as [[[g' l'] e'] r'].
    destruct r' as [o'|]; [destruct o'|]; unfold throws; cbn; rewrite ?upd_upd; reflexivity.
Qed.

Lemma ser_reachable_reachable s : ser_reachable bp c s -> reachable bp c s.
Proof.
  intros [acts H]. revert s H. induction acts as [|a acts IH] using rev_ind; intros s H.
  - exists []. exact H.
  - rewrite ser_run_app in H. destruct (ser_run bp c (sys_init bp c) acts) as [s1|] eqn:E1; [|discriminate].
    cbn in H. destruct (ser_step bp c s1 a) as [s2|] eqn:E2; [|discriminate]. injection H as <-.
    destruct (IH _ eq_refl) as [l Hl].
    assert (X : excl s1) by (apply reachable_excl; exists l; exact Hl).
    assert (Y : exists l', sys_run bp c s1 l' = Some s2).
    { destruct a as [m|t|t|t|]; cbn [ser_step] in E2.
      - exists [ADeliver m]. cbn [sys_run]. rewrite E2. reflexivity.
      - exists [ADispatch t]. cbn [sys_run]. rewrite E2. reflexivity.
      - exists [ALock t]. cbn [sys_run]. rewrite E2. reflexivity.
      - destruct (pget (y_ctl s1) t) eqn:Ec; try discriminate. injection E2 as <-.
        set (s' := mkSys (y_g s1) (y_log s1) (y_ev s1) (y_mutex s1)
                      (upd (y_ctl s1) t (CRun m (section c (y_ok s1) m l0))) (y_q s1) (y_ok s1)).
        assert (Hs : sys_step bp c s1 (AStep t) = Some s') by (cbn; rewrite Ec; reflexivity).
        destruct (complete_reach (section c (y_ok s1) m l0) s' t m) as [l' Hl'].
        { eapply step_excl; eauto. }
        { cbn. apply pget_upd_eq. }
        exists (AStep t :: l'). cbn [sys_run]. rewrite Hs, Hl'. f_equal.
        unfold complete, s'; cbn.
        destruct (prun bp (section c (y_ok s1) m l0) (y_g s1) (y_log s1) (y_ev s1)) as [[[g' l''] e'] r'].
        destruct r' as [o'|]; [destruct o'|]; unfold throws; cbn; rewrite ?upd_upd; reflexivity.
      - exists [AShutdown]. cbn [sys_run]. rewrite E2. reflexivity. }
    destruct Y as [l' Hl']. exists (l ++ l'). rewrite sys_run_app, Hl. exact Hl'.
Qed.

End Proofs.
