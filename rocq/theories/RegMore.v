(* Progress of the map callback, the mode without scan-to-map, and which map meets which scan.        *)
From Verif Require Import Base RegModel RegSpec RegProofs.

Section RegMore.
  Variables C T : Type.
  Variable al_s al_m : C -> C -> T -> T.

  Notation rst := (rst C T).
  Notation lab := (lab C T).
  Notation rstep := (rstep C T al_s al_m).
  Notation rexec := (rexec C T al_s al_m).
  Notation scans := (scans C T).
  Notation maps := (maps C T).
  Notation s2s_all := (s2s_all C T al_s).
  Notation s2m_all := (s2m_all C T al_s al_m).
  Notation Rst := (Rst C T).
  Notation chain := (chain C T al_s).

  (* the n-th registered scan is input n+1, registered against input n with its own guess *)
  Lemma chain_nth l : forall p n c t, nth_error (chain p l) n = Some (c, t) ->
    exists g q, nth_error l n = Some (c, g) /\ t = al_s c q g /\
      match n with O => q = p | S n' => exists h, nth_error l n' = Some (q, h) end.
  Proof.
    induction l as [|[d h] l IH]; intros p n c t H; [destruct n; discriminate|].
    destruct n as [|n]; cbn in H.
    - injection H as <- <-. exists h, p. auto.
    - destruct (IH d n c t H) as (g & q & H1 & H2 & H3). exists g, q. refine (conj H1 (conj H2 _)).
      destruct n as [|n]; [subst q; exists h; reflexivity | exact H3].
  Qed.

  Theorem s2s_nth l n c t : nth_error (s2s_all l) n = Some (c, t) ->
    exists p h g, nth_error l n = Some (p, h) /\ nth_error l (S n) = Some (c, g) /\ t = al_s c p g.
  Proof.
    destruct l as [|[d h] l]; intros H; [destruct n; discriminate|]. cbn [RegSpec.s2s_all] in H.
    destruct (chain_nth l d n c t H) as (g & q & H1 & H2 & H3).
    destruct n as [|n].
    - subst q. exists d, h, g. auto.
    - destruct H3 as (h' & H3). exists q, h', g. auto.
  Qed.

  Lemma s2s_length l : length (s2s_all l) = pred (length l).
  Proof.
    destruct l as [|[d h] l]; [reflexivity|]. cbn. revert d. induction l as [|[e k] l IH]; intros d; cbn; auto.
  Qed.

  (* The n-th published refinement aligns input n+1 to the n-th map, starting from the registration of
     input n+1 against input n.                                                                         *)
  Theorem s2m_nth ls st n c t :
    rexec true ls (rinit C T) = Some (Ok st) -> nth_error (r_pub C T st) n = Some (c, t) ->
    exists p h g m, nth_error (scans ls) n = Some (p, h) /\ nth_error (scans ls) (S n) = Some (c, g) /\
      nth_error (maps ls) n = Some m /\ t = al_m c m (al_s c p g).
  Proof.
    intros H Hn. rewrite (s2m_fifo C T al_s al_m ls st H) in Hn.
    assert (Hn' : nth_error (s2m_all (scans ls) (maps ls)) n = Some (c, t)).
    { revert Hn. generalize (length (r_pub C T st)) (s2m_all (scans ls) (maps ls)). clear.
      intros k l. revert k n. induction l as [|x l IH]; intros [|k] [|n] H; try discriminate; [exact H|]. cbn in *. eapply IH. exact H. }
    unfold RegSpec.s2m_all in Hn'. rewrite nth_error_map in Hn'.
    destruct (nth_error (combine (s2s_all (scans ls)) (maps ls)) n) as [[[c' t'] m]|] eqn:E; [|discriminate].
    cbn in Hn'. injection Hn' as <- <-.
    assert (Hc : nth_error (s2s_all (scans ls)) n = Some (c', t') /\ nth_error (maps ls) n = Some m).
    { revert E. generalize (s2s_all (scans ls)) (maps ls). clear. intros a b. revert b n.
      induction a as [|x a IH]; intros [|y b] [|n] H; try discriminate; cbn in *; [injection H as <- <-; auto | eapply IH; exact H]. }
    destruct Hc as [H1 H2]. destruct (s2s_nth _ _ _ _ H1) as (p & h & g & A1 & A2 & A3).
    exists p, h, g, m. subst t'. auto.
  Qed.

  (* If the n-th map is the one made for input n (no map lost), the guess and the map refer to the same
     lidar frame: the frame of input n.                                                                  *)
  Theorem s2m_same_frame (stamp : C -> Z) ls st :
    rexec true ls (rinit C T) = Some (Ok st) ->
    (forall n m p h, nth_error (maps ls) n = Some m -> nth_error (scans ls) n = Some (p, h) -> stamp m = stamp p) ->
    forall n c t, nth_error (r_pub C T st) n = Some (c, t) ->
      exists p h g m, nth_error (scans ls) n = Some (p, h) /\ nth_error (scans ls) (S n) = Some (c, g) /\
        In m (maps ls) /\ stamp m = stamp p /\ t = al_m c m (al_s c p g).
  Proof.
    intros H Hm n c t Hn. destruct (s2m_nth ls st n c t H Hn) as (p & h & g & m & H1 & H2 & H3 & H4).
    exists p, h, g, m. refine (conj H1 (conj H2 (conj _ (conj _ H4)))).
    - eapply nth_error_In. exact H3.
    - eapply Hm; eassumption.
  Qed.

  (* A map callback that is waiting publishes as soon as a scan is queued.                              *)
  Definition m_steps (m : mpc C T) : nat :=
    match m with
    | MIdle _ _ => 0 | MSleep _ _ _ => 8 | MWant _ _ _ => 7 | MTest _ _ _ => 6 | MRet _ _ _ => 5 | MPopC _ _ _ => 4
    | MPopT _ _ _ _ => 3 | MFree _ _ _ _ _ => 2 | MWork _ _ _ _ _ => 1
    end.

  Theorem s2m_publishes ls st :
    rexec true ls (rinit C T) = Some (Ok st) -> r_ok C T st = true -> r_s C T st = SIdle C T ->
    r_m C T st <> MIdle C T -> (length (r_pub C T st) < length (s2s_all (scans ls)))%nat ->
    exists st' x, rexec true (repeat (RunM C T) (m_steps (r_m C T st))) st = Some (Ok st') /\
      r_m C T st' = MIdle C T /\ r_pub C T st' = r_pub C T st ++ [x].
  Proof.
    intros H Hok Hs Hne Hlt.
    destruct (rinv_exec _ _ _ _ _ _ _ _ _ _ (rinv_init C T al_s al_m) H) as (st' & D & Dm & E & Hi). injection E as <-.
    cbn [app] in Hi. destruct Hi as [Hlen Hpub Hc Ht _ Hs1 Hm1 Hm2 _ Hfull].
    destruct st as [ok own qc qt pv s m pb]. cbn [r_ok r_own r_qc r_qt r_prev r_s r_m r_pub] in *. subst ok s.
    cbn [pend_c pend_t] in *. rewrite app_nil_r in Hc, Ht.
    assert (Hd : length pb = length D) by (rewrite Hpub, map_length, combine_length, Hlen; apply Nat.min_id).
    pose proof (f_equal (@length _) Hc) as L1. pose proof (f_equal (@length _) Ht) as L2.
    rewrite !app_length, !map_length in L1, L2.
    assert (Hown : own = None \/ m_crit C T m = true).
    { destruct own as [[|]|]; [| |auto].
      - pose proof (proj2 Hs1 eq_refl) as Hx. discriminate.
      - destruct (Hm2 eq_refl) as [Hx | (Hx & _)]; [auto | discriminate]. }
    destruct m as [|x|x|x|x|x|x c|x c r|x c r]; try congruence; cbn [hand_c hand_t length m_steps m_crit repeat] in *.
    - destruct Hown as [-> | ?]; [|discriminate].
      destruct qc as [|c qc], qt as [|t qt]; cbn in L1, L2; try lia.
      do 2 eexists. cbn. repeat split.
    - destruct qc as [|c qc], qt as [|t qt]; cbn in L1, L2; try lia.
      do 2 eexists. cbn. repeat split.
    - destruct Hown as [-> | ?]; [|discriminate].
      destruct qc as [|c qc], qt as [|t qt]; cbn in L1, L2; try lia.
      do 2 eexists. cbn. repeat split.
    - destruct qc as [|c qc], qt as [|t qt]; cbn in L1, L2; try lia.
      do 2 eexists. cbn. repeat split.
    - destruct qc as [|c qc], qt as [|t qt]; cbn in L1, L2; try lia.
      do 2 eexists. cbn. repeat split.
    - destruct qt as [|t qt]; [congruence|]. do 2 eexists. cbn. repeat split.
    - do 2 eexists. cbn. repeat split.
    - do 2 eexists. cbn. repeat split.
  Qed.

  (* ------------------------------------------------------------------------------------------------- *)
  (* Without scan-to-map *)
  Record dinv (ls : list lab) (st : rst) : Prop := {
    di_pub : s2s_all (scans ls) = r_pub C T st ++
               match r_s C T st, r_prev C T st with SWork _ _ c g, Some p => [(c, al_s c p g)] | _, _ => [] end;
    di_last : lastc C T (scans ls) = match cur_c C T (r_s C T st) with Some c => Some c | None => r_prev C T st end;
    di_s : match r_s C T st with SIdle _ _ | SWork _ _ _ _ | SEnd _ _ _ => True | _ => False end;
    di_q : r_qc C T st = [] /\ r_qt C T st = [];
    di_m : r_ok C T st = true -> match r_m C T st with MIdle _ _ | MWant _ _ _ | MTest _ _ _ | MSleep _ _ _ => True | _ => False end;
    di_m' : match r_m C T st with MPopC _ _ _ | MPopT _ _ _ _ | MFree _ _ _ _ _ | MWork _ _ _ _ _ => False | _ => True end;
    di_n : r_ok C T st = true -> length (maps ls) = match r_m C T st with MIdle _ _ => 0%nat | _ => 1%nat end
  }.

  Lemma dinv_step ls st l r : dinv ls st -> rstep false l st = Some r ->
    exists st', r = Ok st' /\ dinv (ls ++ [l]) st'.
  Proof.
    intros [Hp Hl Hs [Hq1 Hq2] Hm Hm' Hn] Hst.
    destruct st as [ok own qc qt pv s m pb]. cbn [r_ok r_own r_qc r_qt r_prev r_s r_m r_pub] in *. subst qc qt.
    destruct l as [c g | x | | |]; cbn [RegModel.rstep] in Hst.
    - destruct s; try discriminate. injection Hst as <-. eexists. split; [reflexivity|].
      constructor; cbn [r_ok r_own r_qc r_qt r_prev r_s r_m r_pub]; auto.
      + rewrite scans_snoc, s2s_all_snoc, Hp, Hl. cbn [cur_c]. rewrite app_nil_r. destruct pv; reflexivity.
      + rewrite scans_snoc. apply lastc_snoc.
      + rewrite maps_snoc, app_nil_r. exact Hn.
    - destruct m; try discriminate. injection Hst as <-. eexists. split; [reflexivity|].
      constructor; cbn [r_ok r_own r_qc r_qt r_prev r_s r_m r_pub]; rewrite ?scans_snoc, ?app_nil_r; auto.
      rewrite maps_snoc, app_length. intros Hok. rewrite (Hn Hok). reflexivity.
    - destruct s as [|c g| | | | |c]; try discriminate; try contradiction.
      + destruct pv as [p|]; injection Hst as <-; eexists; (split; [reflexivity|]);
          constructor; cbn [r_ok r_own r_qc r_qt r_prev r_s r_m r_pub]; rewrite ?scans_snoc, ?maps_snoc, ?app_nil_r; auto.
        rewrite Hp, app_nil_r. reflexivity.
      + injection Hst as <-. eexists. split; [reflexivity|].
        constructor; cbn [r_ok r_own r_qc r_qt r_prev r_s r_m r_pub]; rewrite ?scans_snoc, ?maps_snoc, ?app_nil_r; auto.
        rewrite Hp, app_nil_r. reflexivity.
    - destruct m as [|x|x|x|x|x|x c|x c r0|x c r0]; try discriminate; try contradiction.
      + destruct own; [discriminate|]. injection Hst as <-. eexists. split; [reflexivity|].
        constructor; cbn [r_ok r_own r_qc r_qt r_prev r_s r_m r_pub]; rewrite ?scans_snoc, ?maps_snoc, ?app_nil_r; auto.
      + destruct ok; cbn in Hst; injection Hst as <-; eexists; (split; [reflexivity|]);
        constructor; cbn [r_ok r_own r_qc r_qt r_prev r_s r_m r_pub]; rewrite ?scans_snoc, ?maps_snoc, ?app_nil_r; auto; discriminate.
      + injection Hst as <-. eexists. split; [reflexivity|].
        constructor; cbn [r_ok r_own r_qc r_qt r_prev r_s r_m r_pub]; rewrite ?scans_snoc, ?maps_snoc, ?app_nil_r; auto.
      + destruct ok; [destruct (Hm eq_refl)|]. injection Hst as <-. eexists. split; [reflexivity|].
        constructor; cbn [r_ok r_own r_qc r_qt r_prev r_s r_m r_pub]; rewrite ?scans_snoc, ?maps_snoc, ?app_nil_r; auto; discriminate.
    - injection Hst as <-. eexists. split; [reflexivity|].
      constructor; cbn [r_ok r_own r_qc r_qt r_prev r_s r_m r_pub]; rewrite ?scans_snoc, ?maps_snoc, ?app_nil_r; auto; discriminate.
  Qed.

  Lemma dinv_exec ls : forall l0 st r, dinv l0 st -> rexec false ls st = Some r ->
    exists st', r = Ok st' /\ dinv (l0 ++ ls) st'.
  Proof.
    induction ls as [|l ls IH]; intros l0 st r Hi He; cbn [RegModel.rexec] in He.
    - injection He as <-. rewrite app_nil_r. eauto.
    - destruct (rstep false l st) as [r1|] eqn:E; [|discriminate].
      destruct (dinv_step _ _ _ _ Hi E) as (st1 & -> & Hi1).
      destruct (IH _ _ _ Hi1 He) as (st2 & -> & Hi2). exists st2. rewrite <- app_assoc in Hi2. auto.
  Qed.

  Lemma dinv_init : dinv [] (rinit C T).
  Proof. constructor; cbn; auto. Qed.

  (* every scan after the first is registered and published, in order *)
  Theorem s2s_only ls st :
    rexec false ls (rinit C T) = Some (Ok st) ->
    r_pub C T st = firstn (length (r_pub C T st)) (s2s_all (scans ls)) /\
    (r_s C T st = SIdle C T -> r_pub C T st = s2s_all (scans ls)).
  Proof.
    intros H. destruct (dinv_exec _ _ _ _ dinv_init H) as (st' & E & Hi). injection E as <-. cbn [app] in Hi.
    destruct Hi as [Hp _ _ _ _ _ _]. split.
    - rewrite Hp. rewrite firstn_app, firstn_all, Nat.sub_diag. cbn. rewrite app_nil_r. reflexivity.
    - intros Es. rewrite Hp, Es, app_nil_r. reflexivity.
  Qed.

  (* With scan-to-map disabled the subscription to the local map still exists: the first map that
     arrives keeps its callback (and a worker thread) until shutdown, and no further map is taken.      *)
  Theorem s2m_off_blocks_worker_refuted ls st :
    rexec false ls (rinit C T) = Some (Ok st) -> r_ok C T st = true -> maps ls <> [] ->
    length (maps ls) = 1%nat /\ r_m C T st <> MIdle C T /\
    (forall ls' st', rexec false ls' st = Some (Ok st') -> r_ok C T st' = true -> r_m C T st' <> MIdle C T /\ maps ls' = []).
  Proof.
    intros H Hok Hm. destruct (dinv_exec _ _ _ _ dinv_init H) as (st1 & E & Hi). injection E as <-. cbn [app] in Hi.
    assert (Hn := di_n _ _ Hi Hok).
    assert (H1 : r_m C T st <> MIdle C T).
    { intros E. rewrite E in Hn. destruct (maps ls); [congruence | discriminate]. }
    assert (H2 : length (maps ls) = 1%nat) by (destruct (r_m C T st); congruence).
    refine (conj H2 (conj H1 _)). intros ls' st' H' Hok'.
    destruct (dinv_exec _ _ _ _ Hi H') as (st2 & E2 & Hi2). injection E2 as <-.
    assert (Hn2 := di_n _ _ Hi2 Hok'). unfold RegSpec.maps in *. rewrite flat_map_app, app_length, H2 in Hn2.
    split.
    - intros E. rewrite E in Hn2. lia.
    - assert (Hz : (length (flat_map (fun l => match l with InM _ _ m => [m] | _ => [] end) ls') = 0)%nat).
      { destruct (r_m C T st'); lia. }
      apply length_zero_iff_nil. exact Hz.
  Qed.
End RegMore.
