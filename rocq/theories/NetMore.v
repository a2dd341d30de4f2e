(* Theorems about chains of modules: order, completeness, failures, termination.                     *)
From Verif Require Import Base NetModel NetSpec NetProofs.

Section NetMore.
  Variable C S : Type.
  Variable f : S -> C -> res C.
  Variable cap : nat.
  Notation cell := (cell C S).
  Notation on := (on C).
  Notation pub c := (n_pub S (c_nd C S c)).
  Notation op c := (n_op S (c_nd C S c)).
  Notation step := (step C S f cap).
  Notation exec := (exec C S f cap).
  Notation through := (through C S f).
  Notation ops cs := (map (n_op S) (map (c_nd C S) cs)).

  Lemma F2_subseq {A B} (P : A -> B -> Prop) l l' k : Forall2 P l l' -> subseq k l' -> exists k0, subseq k0 l /\ Forall2 P k0 k.
  Proof.
    intros H Hk. revert l H. induction Hk as [l0|x k k' Hk IH|x k k' Hk IH]; intros l H.
    - exists []. split; constructor.
    - inversion H as [|a b l1 l2 Ha Hl]; subst. destruct (IH _ Hl) as (k0 & H1 & H2). exists (a :: k0). split; constructor; assumption.
    - inversion H as [|a b l1 l2 Ha Hl]; subst. destruct (IH _ Hl) as (k0 & H1 & H2). exists k0. split; [constructor; assumption | assumption].
  Qed.
  Lemma F2_comp {A B D} (P : A -> B -> Prop) (Q : B -> D -> Prop) l1 l2 l3 :
    Forall2 P l1 l2 -> Forall2 Q l2 l3 -> Forall2 (fun a d => exists b, P a b /\ Q b d) l1 l3.
  Proof.
    intros H. revert l3. induction H as [|a b l1 l2 Ha Hl IH]; intros l3 H3; inversion H3; subst; constructor; eauto.
  Qed.
  Lemma F2_imp {A B} (P Q : A -> B -> Prop) l1 l2 : (forall a b, P a b -> Q a b) -> Forall2 P l1 l2 -> Forall2 Q l1 l2.
  Proof. intros H. induction 1; constructor; auto. Qed.

  (* running a list of steps from an invariant that is preserved *)
  Section Run.
    Variable R : list C -> list C -> Prop.
    Variable okq : list C -> Prop.
    Hypothesis R_enq : forall p q h m, okq q -> R (p ++ q) h -> R (p ++ enq C cap q m) (h ++ [m]).
    Lemma exec_inv t t' ls : forall s r,
      wf C S t (cells C S s) t' ->
      inv C S f R (on t (log C S s)) (cells C S s) (log C S s) ->
      feeds C t ls ->
      (forall l1 l2 s1, ls = l1 ++ l2 -> exec l1 s = Some (Ok s1) -> l2 <> [] ->
         forall c, In c (cells C S s1) -> okq (c_q C S c)) ->
      exec ls s = Some (Ok r) ->
      inv C S f R (on t (log C S r)) (cells C S r) (log C S r) /\ map (c_nd C S) (cells C S r) = map (c_nd C S) (cells C S s) /\
      on t (log C S r) = on t (log C S s) ++ ins C ls.
    Proof.
      induction ls as [|l ls IH]; intros s r Hw Hi Hfe Hok He; cbn [NetModel.exec] in He.
      - injection He as <-. cbn. rewrite app_nil_r. auto.
      - destruct (step l s) as [[s'| |]|] eqn:Es; try (destruct ls; discriminate).
        assert (Hnp : ~ In t (map (n_pub S) (map (c_nd C S) (cells C S s)))).
        { destruct Hw as [_ Hn]. apply NoDup_cons_iff in Hn. apply Hn. }
        destruct (step_inv C S f cap R okq R_enq t t' s l s' Hw) as (H1 & H2 & H3); auto.
        { intros c Hc. apply (Hok [] (l :: ls) s eq_refl eq_refl); [discriminate | exact Hc]. }
        { intros x m ->. apply (Hfe x m). left. reflexivity. }
        assert (Hw' : wf C S t (cells C S s') t') by (unfold wf; rewrite H2; exact Hw).
        destruct (IH s' r Hw' H1) as (G1 & G2 & G3).
        + intros x m Hx. apply (Hfe x m). right. exact Hx.
        + intros l1 l2 s1 El E1 Hl c Hc. apply (Hok (l :: l1) l2 s1); auto.
          * rewrite El. reflexivity.
          * cbn [NetModel.exec]. rewrite Es. exact E1.
        + exact He.
        + refine (conj G1 (conj _ _)); [congruence|]. rewrite G3, H3, <- app_assoc. reflexivity.
    Qed.
  End Run.

  Lemma init_inv (R : list C -> list C -> Prop) t ns : R [] [] -> inv C S f R (on t []) (cells C S (init C S ns)) [].
  Proof.
    intros HR. cbn [init cells]. change (on t []) with (@nil C). induction ns as [|n ns IH]; cbn; [exact I|].
    split; [|exact IH]. exists []. split; [exact HR | constructor].
  Qed.
  Lemma init_nd ns : map (c_nd C S) (cells C S (init C S ns)) = ns.
  Proof. cbn. rewrite map_map. cbn. apply map_id. Qed.
  Lemma init_wf t ns t' : linked S t ns t' -> NoDup (topics S t ns) -> wf C S t (cells C S (init C S ns)) t'.
  Proof. intros H1 H2. unfold wf. rewrite init_nd. auto. Qed.

  (* ---------------------------------------------------------------- order, with losses in the queues *)
  Lemma R_ss p q h m : True -> subseq (p ++ q) h -> subseq (p ++ enq C cap q m) (h ++ [m]).
  Proof.
    intros _ H. unfold enq. destruct (_ <? _)%nat.
    - rewrite app_assoc. apply ss_app; [exact H | apply ss_refl].
    - rewrite app_assoc. apply ss_app; [|apply ss_refl]. eapply ss_trans; [|exact H]. apply ss_app; [apply ss_refl | apply ss_tl].
  Qed.

  Lemma inv_ss_out t' lg : forall cs t, wf C S t cs t' -> inv C S f subseq (on t lg) cs lg ->
    exists sel, subseq sel (on t lg) /\ Forall2 (fun m r => through (ops cs) m = Ok r) sel (on t' lg).
  Proof.
    induction cs as [|c cs IH]; intros t Hw Hi.
    - destruct Hw as [E _]. cbn in E. subst t'. exists (on t lg). split; [apply ss_refl|].
      generalize (on t lg). intros l. induction l; constructor; auto.
    - pose proof (wf_tail _ _ _ _ _ _ Hw) as Hw'. destruct Hi as [(dn & H1 & H2) H3].
      destruct (IH _ Hw' H3) as (sel & Hs & Hf). destruct (F2_subseq _ _ _ _ H2 Hs) as (k & Hk1 & Hk2).
      exists k. split.
      + eapply ss_trans; [exact Hk1|]. eapply ss_trans; [|exact H1]. apply ss_app_l.
      + eapply F2_imp; [|eapply F2_comp; [exact Hk2 | exact Hf]]. cbn. intros a d (b & -> & Hb). exact Hb.
  Qed.

  (* Whatever the schedule and whatever the queues lose, the output topic carries, in the order of publication,
     messages that went through every step exactly once, in order. *)
  Theorem net_order t ns t' ls s :
    linked S t ns t' -> NoDup (topics S t ns) -> feeds C t ls -> exec ls (init C S ns) = Some (Ok s) ->
    exists sel, subseq sel (ins C ls) /\ Forall2 (fun m r => through (map (n_op S) ns) m = Ok r) sel (on t' (log C S s)).
  Proof.
    intros Hl Hn Hf He.
    destruct (exec_inv subseq (fun _ => True) R_ss t t' ls _ s (init_wf _ _ _ Hl Hn) (init_inv subseq t ns (ss_nil _)) Hf) as (H1 & H2 & H3); auto.
    rewrite init_nd in H2. cbn [init log] in H3. change (on t []) with (@nil C) in H3. cbn [app] in H3.
    assert (Hw : wf C S t (cells C S s) t') by (unfold wf; rewrite H2; auto).
    destruct (inv_ss_out t' _ _ t Hw H1) as (sel & Hs & Hfo). exists sel. rewrite <- H3. rewrite H2 in Hfo. auto.
  Qed.

  (* ---------------------------------------------------------------- completeness, when nothing is lost *)
  Definition okn (q : list C) : Prop := (length q < cap)%nat.
  Lemma R_eq p q h m : okn q -> p ++ q = h -> p ++ enq C cap q m = h ++ [m].
  Proof. intros Hq <-. unfold enq. destruct (Nat.ltb_spec (length q) cap); [apply app_assoc | unfold okn in Hq; lia]. Qed.

  Fixpoint flight (cs : list cell) : nat :=
    match cs with [] => 0%nat | c :: cs' => (length (olist (c_busy C S c)) + length (c_q C S c) + flight cs')%nat end.

  Lemma F2_length {A B} (P : A -> B -> Prop) l l' : Forall2 P l l' -> length l = length l'.
  Proof. induction 1; cbn; auto. Qed.

  Lemma inv_eq_flight t' lg : forall cs t, wf C S t cs t' -> inv C S f eq (on t lg) cs lg ->
    (flight cs + length (on t' lg) = length (on t lg))%nat.
  Proof.
    induction cs as [|c cs IH]; intros t Hw Hi.
    - destruct Hw as [E _]. cbn in E. subst. reflexivity.
    - pose proof (wf_tail _ _ _ _ _ _ Hw) as Hw'. destruct Hi as [(dn & H1 & H2) H3]. specialize (IH _ Hw' H3).
      rewrite <- H1, !app_length. cbn [flight]. apply F2_length in H2. lia.
  Qed.

  Lemma flight_in cs c : In c cs -> (length (olist (c_busy C S c)) + length (c_q C S c) <= flight cs)%nat.
  Proof. induction cs as [|d cs IH]; intros H; [destruct H|]. cbn. destruct H as [<-|H]; [lia|]. specialize (IH H). lia. Qed.

  Lemma flight_in2 cs i n q m c : nth_error cs i = Some (Cell C S n q (Some m)) -> In c cs -> (length (c_q C S c) < flight cs)%nat.
  Proof.
    revert i. induction cs as [|d cs IH]; intros i Hn Hc; [destruct i; discriminate|].
    destruct i as [|i]; cbn [nth_error flight] in *.
    - injection Hn as ->. cbn. destruct Hc as [<-|Hc]; [cbn; lia|]. pose proof (flight_in _ _ Hc). lia.
    - specialize (IH _ Hn). destruct Hc as [<-|Hc]; [|specialize (IH Hc); lia].
      apply nth_error_In in Hn. pose proof (flight_in _ _ Hn). cbn in H. lia.
  Qed.

  (* clouds published but not yet at the end of the chain *)
  Definition at_most_in_flight (t t' : string) (s0 : net C S) (ls : list (lab C)) : Prop :=
    forall l1 l2 s1, ls = l1 ++ l2 -> exec l1 s0 = Some (Ok s1) ->
      (length (on t (log C S s1)) <= length (on t' (log C S s1)) + cap)%nat.

  Lemma exec_app l1 l2 s s1 : exec l1 s = Some (Ok s1) -> exec (l1 ++ l2) s = exec l2 s1.
  Proof.
    revert s. induction l1 as [|l l1 IH]; intros s H; cbn [NetModel.exec app] in *; [injection H as ->; reflexivity|].
    destruct (step l s) as [[s'| |]|]; try (destruct l1; discriminate). apply IH. exact H.
  Qed.

  Lemma exec_snoc l1 l s s2 : exec (l1 ++ [l]) s = Some (Ok s2) -> exists s1, exec l1 s = Some (Ok s1) /\ step l s1 = Some (Ok s2).
  Proof.
    revert s. induction l1 as [|k l1 IH]; intros s H; cbn [NetModel.exec app] in *.
    - exists s. destruct (step l s) as [[?| |]|]; try discriminate. auto.
    - destruct (step k s) as [[s'| |]|]; try (destruct l1; discriminate). apply IH. exact H.
  Qed.

  (* the invariant without losses, for all prefixes *)
  Lemma exec_inv_eq t t' ns : linked S t ns t' -> NoDup (topics S t ns) ->
    forall ls s, feeds C t ls -> at_most_in_flight t t' (init C S ns) ls -> exec ls (init C S ns) = Some (Ok s) ->
    inv C S f eq (on t (log C S s)) (cells C S s) (log C S s) /\ map (c_nd C S) (cells C S s) = ns /\ on t (log C S s) = ins C ls.
  Proof.
    intros Hl Hn ls. induction ls as [|l ls IH] using rev_ind; intros s Hf Ha He.
    - injection He as <-. split; [apply init_inv; reflexivity|]. split; [apply init_nd | reflexivity].
    - destruct (exec_snoc _ _ _ _ He) as (s1 & E1 & Es).
      destruct (IH s1) as (H1 & H2 & H3); auto.
      { intros x m Hx. apply (Hf x m). apply in_or_app. left. exact Hx. }
      { intros a b s2 -> E2. eapply Ha; [|exact E2]. rewrite <- app_assoc. reflexivity. }
      assert (Hw : wf C S t (cells C S s1) t') by (unfold wf; rewrite H2; auto).
      pose proof (inv_eq_flight t' _ _ t Hw H1) as Hfl.
      pose proof (Ha ls [l] s1 eq_refl E1) as Hb1.
      assert (Hb2 : (length (on t (log C S s)) <= length (on t' (log C S s)) + cap)%nat).
      { eapply Ha; [|exact He]. symmetry. apply app_nil_r. }
      assert (Hnp : ~ In t (map (n_pub S) (map (c_nd C S) (cells C S s1)))).
      { destruct Hw as [_ Hnd]. apply NoDup_cons_iff in Hnd. apply Hnd. }
      assert (Hx : forall x m, l = In_ C x m -> x = t).
      { intros x m ->. apply (Hf x m). apply in_or_app. right. left. reflexivity. }
      assert (Hstep : (forall i, l = Start C i -> True) -> (exists i, l = Start C i) \/ (forall c, In c (cells C S s1) -> okn (c_q C S c))).
      { intros _. destruct l as [x m|i|i]; [right | left; eauto | right].
        - assert (x = t) by (eapply Hx; reflexivity). subst x. intros c Hc. unfold okn.
          cbn [NetModel.step] in Es. injection Es as <-. cbn [publish log] in Hb2. rewrite on_same, app_length in Hb2. cbn in Hb2.
          pose proof (flight_in _ _ Hc). destruct ns as [|n ns'].
          + apply map_eq_nil in H2. rewrite H2 in Hc. destruct Hc.
          + assert (t' <> t).
            { clear -Hl Hn. cbn in Hl, Hn. destruct Hl as [_ Hl]. apply NoDup_cons_iff in Hn. destruct Hn as [Hx _].
              intros ->. apply Hx. clear Hx. revert n Hl. induction ns' as [|k ns' IH]; intros n Hl; cbn in *; [left; exact Hl|].
              destruct Hl as [_ Hl]. right. apply IH. exact Hl. }
            rewrite on_other in Hb2 by assumption. lia.
        - intros c Hc. unfold okn. cbn [NetModel.step] in Es.
          destruct (nth_error (cells C S s1) i) as [[n q [m|]]|] eqn:E; try discriminate.
          pose proof (flight_in2 _ _ _ _ _ _ E Hc). lia. }
      assert (Hcase := Hstep ltac:(auto)). clear Hstep.
      assert (G : inv C S f eq (on t (log C S s)) (cells C S s) (log C S s) /\ map (c_nd C S) (cells C S s) = map (c_nd C S) (cells C S s1) /\
                  on t (log C S s) = on t (log C S s1) ++ match l with In_ _ _ m => [m] | _ => [] end).
      { destruct Hcase as [(i & ->) | Hok].
        - cbn [NetModel.step] in Es. destruct (nth_error (cells C S s1) i) as [[n [|m q] [b|]]|] eqn:E; try discriminate.
          injection Es as <-. cbn [cells log]. rewrite app_nil_r. refine (conj _ (conj _ eq_refl)).
          + eapply inv_start; eassumption.
          + apply upd_nd. eauto.
        - apply (step_inv C S f cap eq okn R_eq t t' s1 l s Hw Hok Hx Hnp H1 Es). }
      destruct G as (G1 & G2 & G3). refine (conj G1 (conj _ _)); [congruence|].
      rewrite G3, H3. unfold ins. rewrite flat_map_app. cbn. rewrite app_nil_r. reflexivity.
  Qed.

  Lemma idle_empty s : idle C S f cap s -> (forall c, In c (cells C S s) -> forall m, exists r, f (op c) m = r) ->
    forall c, In c (cells C S s) -> c_q C S c = [] /\ c_busy C S c = None.
  Proof.
    intros Hi _ c Hc. apply In_nth_error in Hc. destruct Hc as (i & Hc). destruct (Hi i) as [H1 H2]. cbn [NetModel.step] in H1, H2.
    rewrite Hc in H1, H2. destruct c as [n q b]. cbn. destruct b as [m|]; [destruct (f (n_op S n) m); discriminate|].
    destruct q; [auto | discriminate].
  Qed.

  Lemma inv_eq_out t' lg : forall cs t, wf C S t cs t' -> inv C S f eq (on t lg) cs lg ->
    Forall2 (fun m r => through (ops cs) m = Ok r) (firstn (length (on t' lg)) (on t lg)) (on t' lg).
  Proof.
    induction cs as [|c cs IH]; intros t Hw Hi.
    - destruct Hw as [E _]. cbn in E. subst t'. rewrite firstn_all.
      generalize (on t lg). intros l. induction l; constructor; auto.
    - pose proof (wf_tail _ _ _ _ _ _ Hw) as Hw'. destruct Hi as [(dn & H1 & H2) H3].
      pose proof (inv_eq_flight t' lg cs _ Hw' H3) as Hlen. pose proof (F2_length _ _ _ H2) as Hdn.
      specialize (IH _ Hw' H3). rewrite <- H1.
      assert (Hk : (length (on t' lg) <= length dn)%nat) by lia.
      rewrite firstn_app. replace (length (on t' lg) - length dn)%nat with 0%nat by lia. cbn [firstn]. rewrite app_nil_r.
      assert (Hp : Forall2 (fun m r => f (op c) m = Ok r) (firstn (length (on t' lg)) dn) (firstn (length (on t' lg)) (on (pub c) lg))).
      { clear -H2. revert H2. generalize (on (pub c) lg) (length (on t' lg)). intros l k H. revert k. induction H; intros [|k]; cbn; constructor; auto. }
      eapply F2_imp; [|eapply F2_comp; [exact Hp | exact IH]]. cbn. intros a d (b & -> & Hb). exact Hb.
  Qed.

  (* If never more clouds are in flight than one queue holds, nothing is lost: the output is, in order, the
     first so many inputs processed, and all of them once no callback can run. *)
  Theorem net_complete t ns t' ls s :
    linked S t ns t' -> NoDup (topics S t ns) -> feeds C t ls -> at_most_in_flight t t' (init C S ns) ls ->
    exec ls (init C S ns) = Some (Ok s) ->
    Forall2 (fun m r => through (map (n_op S) ns) m = Ok r) (firstn (length (on t' (log C S s))) (ins C ls)) (on t' (log C S s)) /\
    (idle C S f cap s -> Forall2 (fun m r => through (map (n_op S) ns) m = Ok r) (ins C ls) (on t' (log C S s))).
  Proof.
    intros Hl Hn Hf Ha He. destruct (exec_inv_eq t t' ns Hl Hn ls s Hf Ha He) as (H1 & H2 & H3).
    assert (Hw : wf C S t (cells C S s) t') by (unfold wf; rewrite H2; auto).
    pose proof (inv_eq_out t' _ _ t Hw H1) as Ho. rewrite H2, H3 in Ho. split; [exact Ho|].
    intros Hid. pose proof (inv_eq_flight t' _ _ t Hw H1) as Hfl.
    assert (Hz : flight (cells C S s) = 0%nat).
    { assert (G : forall c, In c (cells C S s) -> c_q C S c = [] /\ c_busy C S c = None) by (apply idle_empty; [exact Hid | eauto]).
      clear -G. revert G. generalize (cells C S s). induction l as [|c cs IH]; intros G; [reflexivity|]. cbn.
      destruct (G c) as [-> ->]; [left; reflexivity|]. cbn. apply IH. intros d Hd. apply G. right. exact Hd. }
    rewrite H3 in Hfl. rewrite firstn_all2 in Ho by lia. exact Ho.
  Qed.

  (* ---------------------------------------------------------------- failures *)
  Lemma inv_items (R : list C -> list C -> Prop) (HR : forall a b x, R a b -> In x a -> In x b) lg : forall cs h,
    inv C S f R h cs lg -> (forall m, In m h -> exists r, through (ops cs) m = Ok r) ->
    forall c m, In c cs -> In m (olist (c_busy C S c) ++ c_q C S c) -> exists r, f (op c) m = Ok r.
  Proof.
    induction cs as [|c cs IH]; intros h Hi Hh d m Hd Hm; [destruct Hd|]. destruct Hi as [(dn & H1 & H2) H3].
    destruct Hd as [<- | Hd].
    - destruct (Hh m) as (r & Hr). { eapply HR; [exact H1|]. apply in_or_app. right. exact Hm. }
      cbn in Hr. destruct (f (op c) m) as [x| |]; [eauto | discriminate | discriminate].
    - eapply IH; [exact H3 | | exact Hd | exact Hm]. intros y Hy.
      assert (exists x, In x dn /\ f (op c) x = Ok y) as (x & Hx & Hfx).
      { clear -H2 Hy. revert Hy. induction H2; intros Hy; [destruct Hy|]. destruct Hy as [->|Hy]; [eexists; split; [left; reflexivity | assumption]|].
        destruct (IHForall2 Hy) as (x0 & Hx0 & E). exists x0. split; [right; assumption | exact E]. }
      destruct (Hh x) as (r & Hr). { eapply HR; [exact H1|]. apply in_or_app. left. exact Hx. }
      cbn in Hr. rewrite Hfx in Hr. cbn in Hr. eauto.
  Qed.

  (* A run ends with an exception only if some published cloud cannot be processed. *)
  Theorem net_no_failure t ns t' ls r :
    linked S t ns t' -> NoDup (topics S t ns) -> feeds C t ls ->
    (forall m, In m (ins C ls) -> exists x, through (map (n_op S) ns) m = Ok x) ->
    exec ls (init C S ns) = Some r -> exists s, r = Ok s.
  Proof.
    intros Hl Hn Hf Hall He.
    assert (G : forall l1 l2 s1, ls = l1 ++ l2 -> exec l1 (init C S ns) = Some (Ok s1) ->
                inv C S f subseq (on t (log C S s1)) (cells C S s1) (log C S s1) /\ map (c_nd C S) (cells C S s1) = ns /\ on t (log C S s1) = ins C l1).
    { intros l1 l2 s1 El E1.
      destruct (exec_inv subseq (fun _ => True) R_ss t t' l1 _ s1 (init_wf _ _ _ Hl Hn) (init_inv subseq t ns (ss_nil _))) as (H1 & H2 & H3); auto.
      { intros x m Hx. apply (Hf x m). rewrite El. apply in_or_app. left. exact Hx. }
      rewrite init_nd in H2. auto. }
    assert (K : forall l2 l1 s1, ls = l1 ++ l2 -> exec l1 (init C S ns) = Some (Ok s1) -> exec l2 s1 = Some r -> exists s, r = Ok s).
    { induction l2 as [|l l2 IH]; intros l1 s1 El E1 E2; cbn [NetModel.exec] in E2; [injection E2 as <-; eauto|].
      destruct (step l s1) as [rs|] eqn:Es; [|discriminate]. destruct rs as [s'| |].
      - apply (IH (l1 ++ [l]) s'); [rewrite <- app_assoc; exact El | | exact E2].
        rewrite (exec_app _ _ _ _ E1). cbn [NetModel.exec]. rewrite Es. reflexivity.
      - exfalso. destruct l as [x m|i|i]; cbn [NetModel.step] in Es; [discriminate| |].
        + destruct (nth_error (cells C S s1) i) as [[n [|m q] [b|]]|]; discriminate.
        + destruct (nth_error (cells C S s1) i) as [[n q [m|]]|] eqn:E; try discriminate.
          destruct (G l1 _ s1 El E1) as (H1 & H2 & H3).
          destruct (inv_items subseq (fun a b x => ss_In a b x) _ _ _ H1) with (c := Cell C S n q (Some m)) (m := m) as (y & Hy).
          * intros y Hy. rewrite H2. apply Hall. rewrite H3 in Hy. rewrite El. unfold ins in *. rewrite flat_map_app. apply in_or_app. left. exact Hy.
          * eapply nth_error_In. exact E.
          * left. reflexivity.
          * cbn in Hy. rewrite Hy in Es. discriminate.
      - exfalso. destruct l as [x m|i|i]; cbn [NetModel.step] in Es; [discriminate| |].
        + destruct (nth_error (cells C S s1) i) as [[n [|m q] [b|]]|]; discriminate.
        + destruct (nth_error (cells C S s1) i) as [[n q [m|]]|] eqn:E; try discriminate.
          destruct (G l1 _ s1 El E1) as (H1 & H2 & H3).
          destruct (inv_items subseq (fun a b x => ss_In a b x) _ _ _ H1) with (c := Cell C S n q (Some m)) (m := m) as (y & Hy).
          * intros y Hy. rewrite H2. apply Hall. rewrite H3 in Hy. rewrite El. unfold ins in *. rewrite flat_map_app. apply in_or_app. left. exact Hy.
          * eapply nth_error_In. exact E.
          * left. reflexivity.
          * cbn in Hy. rewrite Hy in Es. discriminate. }
    apply (K ls [] (init C S ns) eq_refl eq_refl He).
  Qed.

  (* ---------------------------------------------------------------- termination *)
  Fixpoint meas (cs : list cell) : nat :=
    match cs with
    | [] => 0%nat
    | c :: cs' => (2 * Datatypes.S (length cs') * length (c_q C S c) +
                   (2 * Datatypes.S (length cs') - 1) * length (olist (c_busy C S c)) + meas cs')%nat
    end.

  Lemma enq_len q m : (length (enq C cap q m) <= Datatypes.S (length q))%nat.
  Proof. unfold enq. destruct (_ <? _)%nat; rewrite app_length; cbn; [lia|]. destruct q; cbn; lia. Qed.

  Lemma meas_head t t' cs m : wf C S t cs t' -> (meas (map (deliver C S cap t m) cs) <= meas cs + 2 * length cs)%nat.
  Proof.
    intros Hw. destruct cs as [|c cs]; [cbn; lia|]. pose proof (wf_tail _ _ _ _ _ _ Hw) as [Hl' Hnd'].
    destruct Hw as [[Hs Hl] Hnd]. cbn [map topics] in Hnd. apply NoDup_cons_iff in Hnd. destruct Hnd as [Hx Hn].
    assert (Hrest : map (deliver C S cap t m) cs = cs).
    { apply deliver_none. intros d Hd E. apply Hx.
      assert (In t (topics S (pub c) (map (c_nd C S) cs))).
      { rewrite <- E. eapply wf_sub_in; [split; [exact Hl | exact Hnd'] | exact Hd]. }
      destruct H as [H|H]; [left; exact H|]. right. exact H. }
    cbn [map]. rewrite Hrest. unfold deliver. rewrite Hs, String.eqb_refl. cbn [meas c_q c_busy length].
    pose proof (enq_len (c_q C S c) m). nia.
  Qed.

  Lemma meas_fin t t' i n q m r : forall cs, wf C S t cs t' -> nth_error cs i = Some (Cell C S n q (Some m)) ->
    (meas (map (deliver C S cap (n_pub S n) r) (upd cs i (Cell C S n q None))) < meas cs)%nat.
  Proof.
    intros cs. revert t i. induction cs as [|c cs IH]; intros t i Hw Hn; [destruct i; discriminate|].
    pose proof (wf_tail _ _ _ _ _ _ Hw) as Hw'. destruct Hw as [[Hs Hl] Hnd]. cbn [map topics] in Hnd.
    inversion Hnd as [|x l Hx Hn']; subst x l.
    destruct i as [|i]; cbn [nth_error upd map] in *.
    - injection Hn as ->. cbn [c_nd] in *. unfold deliver at 1. cbn [c_nd].
      destruct (String.eqb_spec (n_sub S n) (n_pub S n)) as [E|E]; [exfalso; apply Hx; left; congruence|].
      cbn [meas c_q c_busy olist length]. rewrite map_length. pose proof (meas_head _ _ _ r Hw'). nia.
    - assert (E1 : n_sub S (c_nd C S c) <> n_pub S n).
      { intros E. apply Hx. right. rewrite <- Hs, E. apply nth_error_In in Hn. rewrite map_map. apply in_map_iff.
        exists (Cell C S n q (Some m)). auto. }
      unfold deliver at 1. destruct (String.eqb_spec (n_sub S (c_nd C S c)) (n_pub S n)); [congruence|].
      cbn [meas]. specialize (IH _ _ Hw' Hn). rewrite map_length.
      assert (Hlen : length (upd cs i (Cell C S n q None)) = length cs).
      { clear. revert i. induction cs as [|x cs IHc]; intros [|i]; cbn; auto. }
      rewrite Hlen. lia.
  Qed.

  Lemma meas_start i n q m : forall cs : list cell, nth_error cs i = Some (Cell C S n (m :: q) None) ->
    (meas (upd cs i (Cell C S n q (Some m))) < meas cs)%nat.
  Proof.
    intros cs. revert i. induction cs as [|c cs IH]; intros i Hn; [destruct i; discriminate|].
    destruct i as [|i]; cbn [nth_error upd] in *.
    - injection Hn as ->. cbn [meas c_q c_busy olist length]. nia.
    - cbn [meas]. specialize (IH _ Hn).
      assert (Hlen : length (upd cs i (Cell C S n q (Some m))) = length cs).
      { clear. revert i. induction cs as [|x cs IHc]; intros [|i]; cbn; auto. }
      rewrite Hlen. lia.
  Qed.

  Definition internal (l : lab C) : Prop := match l with In_ _ _ _ => False | _ => True end.

  Lemma step_meas t t' s l s' : wf C S t (cells C S s) t' -> internal l -> step l s = Some (Ok s') ->
    (meas (cells C S s') < meas (cells C S s))%nat /\ map (c_nd C S) (cells C S s') = map (c_nd C S) (cells C S s).
  Proof.
    intros Hw Hi Hs. destruct l as [x m|i|i]; [destruct Hi| |]; cbn [NetModel.step] in Hs.
    - destruct (nth_error (cells C S s) i) as [[n [|m q] [b|]]|] eqn:E; try discriminate. injection Hs as <-. cbn [cells].
      split; [apply meas_start; exact E | apply upd_nd; eauto].
    - destruct (nth_error (cells C S s) i) as [[n q [m|]]|] eqn:E; try discriminate.
      destruct (f (n_op S n) m); try discriminate. injection Hs as <-. cbn [publish cells].
      split; [eapply meas_fin; eassumption|]. rewrite deliver_nd. apply upd_nd. eauto.
  Qed.

  (* without new input every schedule ends *)
  Theorem net_terminates t t' ls : forall s r, wf C S t (cells C S s) t' -> Forall internal ls -> exec ls s = Some (Ok r) ->
    (length ls + meas (cells C S r) <= meas (cells C S s))%nat.
  Proof.
    induction ls as [|l ls IH]; intros s r Hw Hf He; cbn [NetModel.exec] in He; [injection He as <-; cbn; lia|].
    inversion Hf as [|x y Hx Hy]; subst. destruct (step l s) as [[s'| |]|] eqn:Es; try (destruct ls; discriminate).
    destruct (step_meas t t' s l s' Hw Hx Es) as [H1 H2].
    assert (Hw' : wf C S t (cells C S s') t') by (unfold wf; rewrite H2; exact Hw).
    specialize (IH s' r Hw' Hy He). cbn [length]. lia.
  Qed.

  Lemma idle_dec s : idle C S f cap s \/ exists l r, internal l /\ step l s = Some r.
  Proof.
    assert (G : forall k, (forall i, (i < k)%nat -> step (Start C i) s = None /\ step (Fin C i) s = None) \/ exists l r, internal l /\ step l s = Some r).
    { induction k as [|k [IH|IH]]; [left; intros; lia | | right; exact IH].
      destruct (step (Start C k) s) as [r|] eqn:E1; [right; exists (Start C k), r; split; [exact I | exact E1]|].
      destruct (step (Fin C k) s) as [r|] eqn:E2; [right; exists (Fin C k), r; split; [exact I | exact E2]|].
      left. intros i Hi. destruct (Nat.eq_dec i k) as [->|Hne]; [auto | apply IH; lia]. }
    destruct (G (length (cells C S s))) as [H|H]; [left | right; exact H].
    intros i. destruct (Nat.lt_ge_cases i (length (cells C S s))) as [Hi|Hi]; [apply H; exact Hi|].
    apply nth_error_None in Hi. cbn [NetModel.step]. rewrite Hi. auto.
  Qed.

  (* and some schedule leads to rest: together with net_terminates, every maximal one does *)
  Theorem net_drains t ns t' ls s :
    linked S t ns t' -> NoDup (topics S t ns) -> feeds C t ls ->
    (forall m, In m (ins C ls) -> exists x, through (map (n_op S) ns) m = Ok x) ->
    exec ls (init C S ns) = Some (Ok s) ->
    exists ls' s', Forall internal ls' /\ exec (ls ++ ls') (init C S ns) = Some (Ok s') /\ idle C S f cap s'.
  Proof.
    intros Hl Hn Hf Hall He.
    assert (G : forall k done s1, (meas (cells C S s1) <= k)%nat -> Forall internal done -> exec (ls ++ done) (init C S ns) = Some (Ok s1) ->
                exists ls' s', Forall internal ls' /\ exec (ls ++ ls') (init C S ns) = Some (Ok s') /\ idle C S f cap s').
    { induction k as [|k IH]; intros done s1 Hk Hd E1.
      all: destruct (idle_dec s1) as [Hi | (l & r & Hil & Hr)]; [exists done, s1; auto|].
      all: assert (Hfe : feeds C t (ls ++ (done ++ [l]))).
      1,3: intros x m Hx; apply in_app_or in Hx; destruct Hx as [Hx|Hx]; [apply (Hf x m Hx)|];
           exfalso; apply in_app_or in Hx; destruct Hx as [Hx|[Hx|[]]];
           [rewrite Forall_forall in Hd; specialize (Hd _ Hx); exact Hd | subst l; exact Hil].
      all: assert (Hins : ins C (ls ++ (done ++ [l])) = ins C ls).
      1,3: unfold ins; rewrite !flat_map_app; replace (flat_map _ done) with (@nil C);
           [destruct l; [destruct Hil | | ]; cbn; rewrite ?app_nil_r; reflexivity |
            clear -Hd; induction Hd as [|x y Hx Hy IHd]; [reflexivity | cbn; destruct x; [destruct Hx | exact IHd | exact IHd]]].
      all: assert (Hex : exec (ls ++ (done ++ [l])) (init C S ns) = Some r).
      1,3: rewrite app_assoc; rewrite (exec_app _ _ _ _ E1); cbn [NetModel.exec]; rewrite Hr; destruct r; reflexivity.
      all: destruct (net_no_failure t ns t' _ r Hl Hn Hfe) as (s2 & ->); [rewrite Hins; exact Hall | exact Hex |].
      all: assert (Hw : wf C S t (cells C S s1) t').
      1,3: destruct (exec_inv subseq (fun _ => True) R_ss t t' (ls ++ done) _ s1 (init_wf _ _ _ Hl Hn) (init_inv subseq t ns (ss_nil _))) as (_ & H2 & _); auto;
           [intros x m Hx; apply (Hfe x m); rewrite app_assoc; apply in_or_app; left; exact Hx |
            rewrite init_nd in H2; unfold wf; rewrite H2; auto].
      all: destruct (step_meas t t' s1 l s2 Hw Hil Hr) as [Hm _].
      - lia.
      - apply (IH (done ++ [l]) s2); [lia | apply Forall_app; auto | exact Hex]. }
    apply (G (meas (cells C S s)) [] s); [lia | constructor | rewrite app_nil_r; exact He].
  Qed.
End NetMore.
