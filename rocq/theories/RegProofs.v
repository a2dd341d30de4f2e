(* First-in first-out pairing of scans, guesses and maps under every interleaving.                   *)
From Verif Require Import Base RegModel RegSpec.

Section RegProofs.
  Variables C T : Type.
  Variable al_s al_m : C -> C -> T -> T.

  Notation rst := (rst C T).
  Notation lab := (lab C T).
  Notation rstep := (rstep C T al_s al_m).
  Notation rexec := (rexec C T al_s al_m).
  Notation scans := (scans C T).
  Notation maps := (maps C T).
  Notation s2s_all := (s2s_all C T al_s).
  Notation s2m_all := (s2m_all C T al_s al_m).
  Notation refine := (refine C T al_m).
  Notation Rst := (Rst C T).
  Notation chain := (chain C T al_s).

  Definition lastc (l : list (C * T)) : option C :=
    match rev l with [] => None | (c, _) :: _ => Some c end.

  Lemma lastc_snoc l c g : lastc (l ++ [(c, g)]) = Some c.
  Proof. unfold lastc. rewrite rev_app_distr. reflexivity. Qed.

  Lemma chain_snoc l : forall p c g,
    chain p (l ++ [(c, g)]) = chain p l ++ [(c, al_s c (match lastc l with Some q => q | None => p end) g)].
  Proof.
    induction l as [|[d h] l IH]; intros p c g; [reflexivity|].
    cbn [app RegSpec.chain]. rewrite IH. f_equal. f_equal. f_equal. f_equal.
    unfold lastc. cbn [rev]. destruct (rev l) as [|[e ?] r]; reflexivity.
  Qed.

  Lemma s2s_all_snoc l c g :
    s2s_all (l ++ [(c, g)]) = s2s_all l ++ match lastc l with Some p => [(c, al_s c p g)] | None => [] end.
  Proof.
    destruct l as [|[d h] l]; [reflexivity|].
    cbn [app RegSpec.s2s_all]. rewrite chain_snoc. unfold lastc. cbn [rev].
    destruct (rev l) as [|[e ?] r]; reflexivity.
  Qed.

  Lemma scans_snoc ls l : scans (ls ++ [l]) = scans ls ++ match l with InS _ _ c g => [(c, g)] | _ => [] end.
  Proof. unfold RegSpec.scans. rewrite flat_map_app. cbn. rewrite app_nil_r. reflexivity. Qed.
  Lemma maps_snoc ls l : maps (ls ++ [l]) = maps ls ++ match l with InM _ _ m => [m] | _ => [] end.
  Proof. unfold RegSpec.maps. rewrite flat_map_app. cbn. rewrite app_nil_r. reflexivity. Qed.

  (* what the threads hold *)
  Definition pend_c (pv : option C) (s : spc C T) : list C :=
    match s with
    | SWork _ _ c g => match pv with Some _ => [c] | None => [] end
    | SWant _ _ c _ | SPushC _ _ c _ => [c]
    | _ => []
    end.
  Definition pend_t (pv : option C) (s : spc C T) : list T :=
    match s with
    | SWork _ _ c g => match pv with Some p => [al_s c p g] | None => [] end
    | SWant _ _ _ r | SPushC _ _ _ r | SPushT _ _ _ r => [r]
    | _ => []
    end.
  Definition hand_c (m : mpc C T) : list C :=
    match m with MPopT _ _ _ c | MFree _ _ _ c _ | MWork _ _ _ c _ => [c] | _ => [] end.
  Definition hand_t (m : mpc C T) : list T :=
    match m with MFree _ _ _ _ r | MWork _ _ _ _ r => [r] | _ => [] end.
  Definition hand_m (m : mpc C T) : list C :=
    match m with
    | MIdle _ _ => []
    | MWant _ _ x | MTest _ _ x | MSleep _ _ x | MRet _ _ x | MPopC _ _ x => [x]
    | MPopT _ _ x _ | MFree _ _ x _ _ | MWork _ _ x _ _ => [x]
    end.
  Definition s_crit (s : spc C T) : bool :=
    match s with SPushC _ _ _ _ | SPushT _ _ _ _ | SFree _ _ _ => true | _ => false end.
  Definition m_crit (m : mpc C T) : bool :=
    match m with MTest _ _ _ | MRet _ _ _ | MPopC _ _ _ | MPopT _ _ _ _ | MFree _ _ _ _ _ => true | _ => false end.
  Definition cur_c (s : spc C T) : option C :=
    match s with
    | SIdle _ _ => None
    | SWork _ _ c _ | SWant _ _ c _ | SPushC _ _ c _ | SPushT _ _ c _ | SFree _ _ c | SEnd _ _ c => Some c
    end.

  (* after shutdown the map callback returned with the lock *)
  Definition leaked (st : rst) : Prop :=
    r_ok C T st = false /\ r_own C T st = Some ThM /\
    match r_m C T st with MIdle _ _ | MWant _ _ _ => True | _ => False end.

  (* The invariant.  [D], [Dm]: registered scans and maps that are done.                             *)
  Record rinv (ls : list lab) (st : rst) (D : list (C * T)) (Dm : list C) : Prop := {
    ri_len : length D = length Dm;
    ri_pub : r_pub C T st = map refine (combine D Dm);
    ri_c : map fst (s2s_all (scans ls)) = map fst D ++ hand_c (r_m C T st) ++ r_qc C T st ++ pend_c (r_prev C T st) (r_s C T st);
    ri_t : map snd (s2s_all (scans ls)) = map snd D ++ hand_t (r_m C T st) ++ r_qt C T st ++ pend_t (r_prev C T st) (r_s C T st);
    ri_m : maps ls = Dm ++ hand_m (r_m C T st) \/ (leaked st /\ exists rest, maps ls = Dm ++ rest);
    ri_s1 : s_crit (r_s C T st) = true <-> r_own C T st = Some ThS;
    ri_m1 : m_crit (r_m C T st) = true -> r_own C T st = Some ThM;
    ri_m2 : r_own C T st = Some ThM -> m_crit (r_m C T st) = true \/ leaked st;
    ri_last : lastc (scans ls) = match cur_c (r_s C T st) with Some c => Some c | None => r_prev C T st end;
    ri_full : match r_m C T st with
              | MRet _ _ _ => r_ok C T st = true -> r_qc C T st <> [] /\ r_qt C T st <> []
              | MPopC _ _ _ => r_qc C T st <> [] /\ r_qt C T st <> []
              | MPopT _ _ _ _ => r_qt C T st <> []
              | _ => True
              end
  }.

  Lemma rinv_init : rinv [] (rinit C T) [] [].
  Proof.
    constructor; cbn; auto; try discriminate; try (split; discriminate).
  Qed.

  Lemma rinv_step ls st D Dm l r :
    rinv ls st D Dm -> rstep true l st = Some r ->
    exists st' D' Dm', r = Ok st' /\ rinv (ls ++ [l]) st' D' Dm'.
  Proof.
    intros [Hlen Hpub Hc Ht Hm Hs1 Hm1 Hm2 Hlast Hfull] Hst.
    destruct st as [ok own qc qt pv s m pb]. cbn [r_ok r_own r_qc r_qt r_prev r_s r_m r_pub] in *.
    destruct l as [c g | x | | |]; cbn [RegModel.rstep] in Hst.
    - (* a new scan *)
      destruct s; try discriminate. injection Hst as <-. eexists; exists D, Dm. split; [reflexivity|].
      cbn [cur_c] in Hlast.
      constructor; cbn [r_ok r_own r_qc r_qt r_prev r_s r_m r_pub]; try assumption; try discriminate; try (rewrite Hc; cbn; rewrite ?app_nil_r; reflexivity); try (rewrite Ht; cbn; rewrite ?app_nil_r; reflexivity).
      + rewrite scans_snoc, s2s_all_snoc, map_app, Hc, Hlast. cbn [pend_c]. rewrite !app_nil_r.
        destruct pv; cbn; rewrite ?app_nil_r, ?app_assoc; reflexivity.
      + rewrite scans_snoc, s2s_all_snoc, map_app, Ht, Hlast. cbn [pend_t]. rewrite !app_nil_r.
        destruct pv; cbn; rewrite ?app_nil_r, ?app_assoc; reflexivity.
      + rewrite maps_snoc, app_nil_r. exact Hm.
      + rewrite scans_snoc. apply lastc_snoc.
    - (* a new map *)
      destruct m; try discriminate. injection Hst as <-. eexists; exists D, Dm. split; [reflexivity|].
      constructor; cbn [r_ok r_own r_qc r_qt r_prev r_s r_m r_pub]; try (rewrite scans_snoc, app_nil_r); try assumption; try discriminate; try (rewrite Hc; cbn; rewrite ?app_nil_r; reflexivity); try (rewrite Ht; cbn; rewrite ?app_nil_r; reflexivity).
      + rewrite maps_snoc. destruct Hm as [Hm | (Hl & rest & Hm)].
        * left. cbn [hand_m] in *. rewrite Hm, app_nil_r. reflexivity.
        * right. split; [exact Hl|]. exists (rest ++ [x]). rewrite Hm, app_assoc. reflexivity.
    - (* the scan thread *)
      destruct s as [|c g|c r0|c r0|c r0|c|c]; try discriminate.
      + destruct pv as [p|]; injection Hst as <-; eexists; exists D, Dm; (split; [reflexivity|]);
          (constructor; cbn [r_ok r_own r_qc r_qt r_prev r_s r_m r_pub]; rewrite ?scans_snoc, ?maps_snoc, ?app_nil_r; try assumption; try discriminate; try (rewrite Hc; cbn; rewrite ?app_nil_r; reflexivity); try (rewrite Ht; cbn; rewrite ?app_nil_r; reflexivity)).
      + destruct own; [discriminate|]. injection Hst as <-. eexists; exists D, Dm. split; [reflexivity|].
        constructor; cbn [r_ok r_own r_qc r_qt r_prev r_s r_m r_pub]; rewrite ?scans_snoc, ?maps_snoc, ?app_nil_r; try assumption; try discriminate; try (rewrite Hc; cbn; rewrite ?app_nil_r; reflexivity); try (rewrite Ht; cbn; rewrite ?app_nil_r; reflexivity).
        * destruct Hm as [Hm | ((_ & Hl & _) & _)]; [left; exact Hm | discriminate].
        * split; reflexivity.
        * intros H. specialize (Hm1 H). discriminate.
      + injection Hst as <-. eexists; exists D, Dm. split; [reflexivity|].
        constructor; cbn [r_ok r_own r_qc r_qt r_prev r_s r_m r_pub]; rewrite ?scans_snoc, ?maps_snoc, ?app_nil_r; try assumption; try discriminate; try (rewrite Hc; cbn; rewrite ?app_nil_r; reflexivity); try (rewrite Ht; cbn; rewrite ?app_nil_r; reflexivity).
        * assert (Ho : own = Some ThS) by (apply Hs1; reflexivity). subst own.
          destruct m; cbn in *; auto; specialize (Hm1 eq_refl); discriminate.
      + injection Hst as <-. eexists; exists D, Dm. split; [reflexivity|].
        constructor; cbn [r_ok r_own r_qc r_qt r_prev r_s r_m r_pub]; rewrite ?scans_snoc, ?maps_snoc, ?app_nil_r; try assumption; try discriminate; try (rewrite Hc; cbn; rewrite ?app_nil_r; reflexivity); try (rewrite Ht; cbn; rewrite ?app_nil_r; reflexivity).
        * assert (Ho : own = Some ThS) by (apply Hs1; reflexivity). subst own.
          destruct m; cbn in *; auto; specialize (Hm1 eq_refl); discriminate.
      + assert (Ho : own = Some ThS) by (apply Hs1; reflexivity). subst own.
        injection Hst as <-. eexists; exists D, Dm. split; [reflexivity|].
        constructor; cbn [r_ok r_own r_qc r_qt r_prev r_s r_m r_pub]; rewrite ?scans_snoc, ?maps_snoc, ?app_nil_r; try assumption; try discriminate; try (rewrite Hc; cbn; rewrite ?app_nil_r; reflexivity); try (rewrite Ht; cbn; rewrite ?app_nil_r; reflexivity).
        * destruct Hm as [Hm | ((_ & Hl & _) & _)]; [left; exact Hm | discriminate].
        * split; discriminate.
        * intros H. specialize (Hm1 H). discriminate.
      + injection Hst as <-. eexists; exists D, Dm. split; [reflexivity|].
        constructor; cbn [r_ok r_own r_qc r_qt r_prev r_s r_m r_pub]; rewrite ?scans_snoc, ?maps_snoc, ?app_nil_r; try assumption; try discriminate; try (rewrite Hc; cbn; rewrite ?app_nil_r; reflexivity); try (rewrite Ht; cbn; rewrite ?app_nil_r; reflexivity).
    - (* the map thread *)
      assert (Hs0 : m_crit m = true -> own = Some ThM /\ s_crit s = false).
      { intros H. specialize (Hm1 H). split; [exact Hm1|]. destruct (s_crit s) eqn:E; [|reflexivity].
        assert (own = Some ThS) by (apply Hs1; reflexivity). congruence. }
      assert (Hnl : m_crit m = true -> maps ls = Dm ++ hand_m m).
      { intros H. destruct Hm as [Hm | ((_ & _ & Hl) & _)]; [exact Hm|]. destruct m; cbn in *; (contradiction || discriminate). }
      destruct m as [|x|x|x|x|x|x c|x c r0|x c r0]; try discriminate; cbn [m_crit] in *.
      + destruct own; [discriminate|]. injection Hst as <-. eexists; exists D, Dm. split; [reflexivity|].
        constructor; cbn [r_ok r_own r_qc r_qt r_prev r_s r_m r_pub]; rewrite ?scans_snoc, ?maps_snoc, ?app_nil_r; try assumption; try discriminate; try (rewrite Hc; cbn; rewrite ?app_nil_r; reflexivity); try (rewrite Ht; cbn; rewrite ?app_nil_r; reflexivity); auto.
        * destruct Hm as [Hm | ((_ & Hl & _) & _)]; [left; exact Hm | discriminate].
        * rewrite Hs1. split; discriminate.
      + destruct (Hs0 eq_refl) as [-> Hsc]. specialize (Hnl eq_refl).
        destruct (ok && (match qt with [] => true | _ => false end || match qc with [] => true | _ => false end)) eqn:E;
          injection Hst as <-; eexists; exists D, Dm; (split; [reflexivity|]);
          (constructor; cbn [r_ok r_own r_qc r_qt r_prev r_s r_m r_pub]; rewrite ?scans_snoc, ?maps_snoc, ?app_nil_r; try assumption; try discriminate; try (rewrite Hc; cbn; rewrite ?app_nil_r; reflexivity); try (rewrite Ht; cbn; rewrite ?app_nil_r; reflexivity); auto).
        * rewrite Hsc. split; discriminate.
        * intros ->. cbn in E. destruct qt, qc; cbn in E; try discriminate. split; discriminate.
      + injection Hst as <-. eexists; exists D, Dm. split; [reflexivity|].
        constructor; cbn [r_ok r_own r_qc r_qt r_prev r_s r_m r_pub]; rewrite ?scans_snoc, ?maps_snoc, ?app_nil_r; try assumption; try discriminate; try (rewrite Hc; cbn; rewrite ?app_nil_r; reflexivity); try (rewrite Ht; cbn; rewrite ?app_nil_r; reflexivity); auto.
        * destruct Hm as [Hm | ((_ & _ & []) & _)]. left. exact Hm.
        * intros H. destruct (Hm2 H) as [H' | (_ & _ & [])]. discriminate.
      + destruct (Hs0 eq_refl) as [-> Hsc]. specialize (Hnl eq_refl). destruct ok; injection Hst as <-; eexists; exists D, Dm; (split; [reflexivity|]);
          (constructor; cbn [r_ok r_own r_qc r_qt r_prev r_s r_m r_pub]; rewrite ?scans_snoc, ?maps_snoc, ?app_nil_r; try assumption; try discriminate; try (rewrite Hc; cbn; rewrite ?app_nil_r; reflexivity); try (rewrite Ht; cbn; rewrite ?app_nil_r; reflexivity); auto).
        * right. split; [repeat split; auto|]. eauto.
        * intros _. right. repeat split; auto.
      + destruct (Hs0 eq_refl) as [-> Hsc]. specialize (Hnl eq_refl). destruct qc as [|c qc]; [destruct Hfull; congruence|].
        injection Hst as <-. eexists; exists D, Dm. split; [reflexivity|].
        constructor; cbn [r_ok r_own r_qc r_qt r_prev r_s r_m r_pub]; rewrite ?scans_snoc, ?maps_snoc, ?app_nil_r; try assumption; try discriminate; try (rewrite Hc; cbn; rewrite ?app_nil_r; reflexivity); try (rewrite Ht; cbn; rewrite ?app_nil_r; reflexivity); auto.
        apply Hfull.
      + destruct (Hs0 eq_refl) as [-> Hsc]. specialize (Hnl eq_refl). destruct qt as [|t qt]; [congruence|].
        injection Hst as <-. eexists; exists D, Dm. split; [reflexivity|].
        constructor; cbn [r_ok r_own r_qc r_qt r_prev r_s r_m r_pub]; rewrite ?scans_snoc, ?maps_snoc, ?app_nil_r; try assumption; try discriminate; try (rewrite Hc; cbn; rewrite ?app_nil_r; reflexivity); try (rewrite Ht; cbn; rewrite ?app_nil_r; reflexivity); auto.
      + destruct (Hs0 eq_refl) as [-> Hsc]. specialize (Hnl eq_refl).
        injection Hst as <-. eexists; exists D, Dm. split; [reflexivity|].
        constructor; cbn [r_ok r_own r_qc r_qt r_prev r_s r_m r_pub]; rewrite ?scans_snoc, ?maps_snoc, ?app_nil_r; try assumption; try discriminate; try (rewrite Hc; cbn; rewrite ?app_nil_r; reflexivity); try (rewrite Ht; cbn; rewrite ?app_nil_r; reflexivity); auto.
        * rewrite Hsc. split; discriminate.
      + injection Hst as <-. exists (Rst ok own qc qt pv s (MIdle C T) (pb ++ [(c, al_m c x r0)])), (D ++ [(c, r0)]), (Dm ++ [x]).
        split; [reflexivity|].
        constructor; cbn [r_ok r_own r_qc r_qt r_prev r_s r_m r_pub]; rewrite ?scans_snoc, ?maps_snoc, ?app_nil_r; try assumption; try discriminate; try (rewrite Hc; cbn; rewrite ?app_nil_r; reflexivity); try (rewrite Ht; cbn; rewrite ?app_nil_r; reflexivity); auto.
        * rewrite !app_length, Hlen. reflexivity.
        * rewrite Hpub. clear - Hlen. revert Dm Hlen. induction D as [|d D IH]; intros [|y Dm] Hlen; try discriminate; [reflexivity|].
          cbn [app combine map]. f_equal. apply IH. injection Hlen as Hlen. exact Hlen.
        * rewrite Hc, map_app, <- app_assoc. reflexivity.
        * rewrite Ht, map_app, <- app_assoc. reflexivity.
        * destruct Hm as [Hm | ((_ & _ & []) & _)]. left. exact Hm.
        * intros H. destruct (Hm2 H) as [H' | (_ & _ & [])]. discriminate.
    - (* shutdown *)
      injection Hst as <-. eexists; exists D, Dm. split; [reflexivity|].
      constructor; cbn [r_ok r_own r_qc r_qt r_prev r_s r_m r_pub]; rewrite ?scans_snoc, ?maps_snoc, ?app_nil_r; try assumption; try discriminate; try (rewrite Hc; cbn; rewrite ?app_nil_r; reflexivity); try (rewrite Ht; cbn; rewrite ?app_nil_r; reflexivity).
      + destruct Hm as [Hm | ((H1 & H2 & H3) & Hm)]; [left; exact Hm | right]. split; [repeat split; assumption | exact Hm].
      + intros H. destruct (Hm2 H) as [H' | (H1 & H2 & H3)]; [auto | right; repeat split; assumption].
      + destruct m; auto. discriminate.
  Qed.

  Lemma rinv_exec ls : forall l0 st D Dm r,
    rinv l0 st D Dm -> rexec true ls st = Some r ->
    exists st' D' Dm', r = Ok st' /\ rinv (l0 ++ ls) st' D' Dm'.
  Proof.
    induction ls as [|l ls IH]; intros l0 st D Dm r Hi He; cbn [RegModel.rexec] in He.
    - injection He as <-. rewrite app_nil_r. eauto.
    - destruct (rstep true l st) as [r1|] eqn:E; [|discriminate].
      destruct (rinv_step _ _ _ _ _ _ Hi E) as (st1 & D1 & Dm1 & -> & Hi1).
      destruct (IH _ _ _ _ _ Hi1 He) as (st2 & D2 & Dm2 & -> & Hi2).
      exists st2, D2, Dm2. rewrite <- app_assoc in Hi2. auto.
  Qed.

  Theorem s2m_no_ub ls r : rexec true ls (rinit C T) = Some r -> exists st, r = Ok st.
  Proof. intros H. destruct (rinv_exec _ _ _ _ _ _ rinv_init H) as (st & _ & _ & -> & _). eauto. Qed.

  Lemma combine_split_eq {A B : Type} (D : list (A * B)) l1 l2 X :
    map fst X = map fst D ++ l1 -> map snd X = map snd D ++ l2 -> exists Y, X = D ++ Y /\ map fst Y = l1 /\ map snd Y = l2.
  Proof.
    revert X. induction D as [|[a b] D IH]; intros X H1 H2.
    - exists X. auto.
    - destruct X as [|[a' b'] X]; [discriminate|]. cbn in H1, H2. injection H1 as -> H1. injection H2 as -> H2.
      destruct (IH X H1 H2) as (Y & -> & HY). exists Y. auto.
  Qed.

  (* Everything published is, in order, the n-th registered scan refined against the n-th map.        *)
  Theorem s2m_fifo ls st :
    rexec true ls (rinit C T) = Some (Ok st) ->
    r_pub C T st = firstn (length (r_pub C T st)) (s2m_all (scans ls) (maps ls)).
  Proof.
    intros H. destruct (rinv_exec _ _ _ _ _ _ rinv_init H) as (st' & D & Dm & E & Hi). injection E as <-.
    cbn [app] in Hi. destruct Hi as [Hlen Hpub Hc Ht Hm _ _ _ _ _].
    destruct (combine_split_eq D _ _ _ Hc Ht) as (Y & HX & _ & _).
    assert (HM : exists rest, maps ls = Dm ++ rest) by (destruct Hm as [Hm | (_ & rest & Hm)]; eauto).
    destruct HM as (rest & HM).
    unfold RegSpec.s2m_all. rewrite HX, HM.
    assert (Hcomb : forall (A B : Type) (a1 a2 : list A) (b1 b2 : list B), length a1 = length b1 ->
              combine (a1 ++ a2) (b1 ++ b2) = combine a1 b1 ++ combine a2 b2).
    { clear. induction a1 as [|a a1 IH]; intros a2 [|b b1] b2 Hl; try discriminate; [reflexivity|]. cbn. f_equal. apply IH. injection Hl as Hl. exact Hl. }
    rewrite Hcomb by exact Hlen. rewrite map_app, <- Hpub.
    rewrite firstn_app, firstn_all, Nat.sub_diag. cbn. rewrite app_nil_r. reflexivity.
  Qed.

  (* While the lock is free, the two queues hold exactly the registered scans not yet taken.          *)
  Theorem s2m_queues ls st :
    rexec true ls (rinit C T) = Some (Ok st) -> r_own C T st = None ->
    length (r_qc C T st) = length (r_qt C T st) /\
    exists taken pend, s2s_all (scans ls) = taken ++ combine (r_qc C T st) (r_qt C T st) ++ pend /\
      (length (r_pub C T st) <= length taken <= length (r_pub C T st) + 1)%nat /\ (length pend <= 1)%nat /\
      (r_s C T st = SIdle C T -> pend = []) /\
      (r_m C T st = MIdle C T -> length taken = length (r_pub C T st)).
  Proof.
    intros H Ho. destruct (rinv_exec _ _ _ _ _ _ rinv_init H) as (st' & D & Dm & E & Hi). injection E as <-.
    cbn [app] in Hi. destruct Hi as [Hlen Hpub Hc Ht Hm Hs1 Hm1 Hm2 _ _].
    assert (Hs : s_crit (r_s C T st) = false).
    { destruct (s_crit (r_s C T st)) eqn:E; [|reflexivity]. assert (r_own C T st = Some ThS) by (apply Hs1; reflexivity). congruence. }
    assert (Hmc : m_crit (r_m C T st) = false).
    { destruct (m_crit (r_m C T st)) eqn:E; [|reflexivity]. specialize (Hm1 eq_refl). congruence. }
    assert (Hlp : length (pend_c (r_prev C T st) (r_s C T st)) = length (pend_t (r_prev C T st) (r_s C T st))).
    { destruct (r_s C T st); cbn in *; try reflexivity; try discriminate. destruct (r_prev C T st); reflexivity. }
    assert (Hlh : length (hand_c (r_m C T st)) = length (hand_t (r_m C T st))).
    { destruct (r_m C T st); cbn in *; try reflexivity; discriminate. }
    assert (Hq : length (r_qc C T st) = length (r_qt C T st)).
    { pose proof (f_equal (@length _) Hc) as L1. pose proof (f_equal (@length _) Ht) as L2.
      rewrite !app_length, !map_length in L1, L2. lia. }
    split; [exact Hq|].
    assert (Hfs : forall (A B : Type) (a : list A) (b : list B), length a = length b ->
              map fst (combine a b) = a /\ map snd (combine a b) = b).
    { clear. induction a as [|x a IH]; intros [|y b] Hl; try discriminate; [auto|]. injection Hl as Hl.
      destruct (IH b Hl) as [E1 E2]. cbn. rewrite E1, E2. auto. }
    pose (taken := D ++ combine (hand_c (r_m C T st)) (hand_t (r_m C T st))).
    pose (pend := combine (pend_c (r_prev C T st) (r_s C T st)) (pend_t (r_prev C T st) (r_s C T st))).
    exists taken, pend. refine (conj _ (conj _ (conj _ (conj _ _)))).
    - assert (Hinj : forall (A B : Type) (X Y : list (A * B)), map fst X = map fst Y -> map snd X = map snd Y -> X = Y).
      { clear. induction X as [|[a b] X IH]; intros [|[a' b'] Y] H1 H2; try discriminate; [reflexivity|].
        cbn in H1, H2. injection H1 as -> H1. injection H2 as -> H2. f_equal. apply IH; assumption. }
      apply Hinj; unfold taken, pend; rewrite !map_app; rewrite <- ?app_assoc.
      + destruct (Hfs _ _ _ _ Hlh) as [-> _]. destruct (Hfs _ _ _ _ Hlp) as [-> _]. destruct (Hfs _ _ _ _ Hq) as [-> _]. exact Hc.
      + destruct (Hfs _ _ _ _ Hlh) as [_ ->]. destruct (Hfs _ _ _ _ Hlp) as [_ ->]. destruct (Hfs _ _ _ _ Hq) as [_ ->]. exact Ht.
    - unfold taken. rewrite Hpub, map_length, combine_length, <- Hlen, Nat.min_id, app_length, combine_length.
      destruct (r_m C T st); cbn; lia.
    - unfold pend. rewrite combine_length. destruct (r_s C T st); cbn; try lia. destruct (r_prev C T st); cbn; lia.
    - intros Es. unfold pend. rewrite Es. reflexivity.
    - intros Em. unfold taken. rewrite Em. cbn. rewrite app_nil_r, Hpub, map_length, combine_length, <- Hlen, Nat.min_id. reflexivity.
  Qed.

  (* When the map callback is idle and the node has not been shut down, every map has been used.      *)
  Theorem s2m_idle_done ls st :
    rexec true ls (rinit C T) = Some (Ok st) -> r_ok C T st = true -> r_m C T st = MIdle C T ->
    length (r_pub C T st) = length (maps ls) /\ r_pub C T st = s2m_all (scans ls) (maps ls).
  Proof.
    intros H Ho Em. pose proof (s2m_fifo ls st H) as Hf.
    destruct (rinv_exec _ _ _ _ _ _ rinv_init H) as (st' & D & Dm & E & Hi). injection E as <-.
    cbn [app] in Hi. destruct Hi as [Hlen Hpub _ _ Hm _ _ _ _ _].
    destruct Hm as [Hm | ((Hl & _) & _)]; [|congruence]. rewrite Em in Hm. cbn in Hm. rewrite app_nil_r in Hm.
    assert (Hl : length (r_pub C T st) = length (maps ls)).
    { rewrite Hpub, map_length, combine_length, Hlen, Nat.min_id, Hm. reflexivity. }
    split; [exact Hl|]. rewrite Hf at 1. apply firstn_all2. unfold RegSpec.s2m_all. rewrite map_length, combine_length. lia.
  Qed.

  (* No deadlock: while the node runs, either thread that has work can make a step, or it waits for the
     other, which can; a sleeping map callback sees the queued scan.                                   *)
  Theorem s2m_progress ls st :
    rexec true ls (rinit C T) = Some (Ok st) -> r_ok C T st = true ->
    r_s C T st <> SIdle C T \/ (r_m C T st <> MIdle C T) ->
    exists l, (l = RunS C T \/ l = RunM C T) /\ exists st', rstep true l st = Some (Ok st').
  Proof.
    intros H Hok Hne. destruct (rinv_exec _ _ _ _ _ _ rinv_init H) as (st' & D & Dm & E & Hi). injection E as <-.
    cbn [app] in Hi.
    assert (Hex : forall l r, rstep true l st = Some r -> exists st', rstep true l st = Some (Ok st')).
    { intros l r Hr. destruct (rinv_step _ _ _ _ _ _ Hi Hr) as (s1 & _ & _ & -> & _). eauto. }
    destruct Hi as [_ _ _ _ _ Hs1 Hm1 Hm2 _ Hfull].
    destruct st as [ok own qc qt pv s m pb]. cbn [r_ok r_own r_qc r_qt r_prev r_s r_m r_pub] in *. subst ok.
    destruct own as [[|]|].
    - assert (Hsc : s_crit s = true) by (apply Hs1; reflexivity).
      exists (RunS C T). split; [auto|]. destruct s; try discriminate; cbn; eauto.
    - destruct (Hm2 eq_refl) as [Hmc | (Hf & _)]; [|discriminate].
      exists (RunM C T). split; [auto|].
      destruct (rstep true (RunM C T) (Rst true (Some ThM) qc qt pv s m pb)) as [r|] eqn:E; [rewrite <- E; exact (Hex _ _ E)|].
      exfalso. destruct m; cbn in *; try discriminate.
      + destruct (match qt with [] => true | _ => false end || match qc with [] => true | _ => false end); discriminate.
      + destruct qc; discriminate.
      + destruct qt; discriminate.
    - destruct Hne as [Hne | Hne].
      + exists (RunS C T). split; [auto|]. destruct s as [|c g|c r0|c r0|c r0|c|c]; try congruence; cbn; eauto.
        destruct pv; eauto.
      + exists (RunM C T). split; [auto|].
        destruct (rstep true (RunM C T) (Rst true None qc qt pv s m pb)) as [r|] eqn:E; [rewrite <- E; exact (Hex _ _ E)|].
        exfalso. destruct m; cbn in *; try congruence.
        * destruct (match qt with [] => true | _ => false end || match qc with [] => true | _ => false end); discriminate.
        * destruct qc; discriminate.
        * destruct qt; discriminate.
  Qed.

End RegProofs.
