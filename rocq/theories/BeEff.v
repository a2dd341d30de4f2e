(* Effects of a well-formed graph manager call, and weakest preconditions of critical sections. *)
From Verif Require Import Base GmModel GmSpec GmInv GmProofs GmFactors GmValues GmHist GmKeys GmStereo GmIds GmReady.
From Verif Require Import BeModel BeSpec.

Section Eff.
Variable bp : Z -> Z -> Z -> Z -> Z.

Record eff (s : igm) (op : gmop) (s' : igm) : Prop := {
  e_keys : forall n, sget n (g_keys (i_gm s')) = named_after n op (sget n (g_keys (i_gm s)));
  e_ts : forall k, mget k (g_ts (i_gm s')) = stamp_after k op (mget k (g_ts (i_gm s)));
  e_val : forall v, In v (mkeys (g_val (i_gm s'))) <->
            (opt_bound op = None /\ In v (map fst (writes bp s op))) \/ In v (mkeys (g_val (i_gm s)));
  e_opt : i_opt s' = match opt_bound op with Some m => m | None => i_opt s end;
  e_vars : forall v, In v (i_vars s) -> In v (i_vars s');
  e_vars_opt : forall m c k, opt_bound op = Some m -> state_sym c = true -> idx_ok k = true -> k <= m ->
            In (raw c k) (mkeys (g_val (i_gm s))) -> In (raw c k) (i_vars s');
  e_calib : g_calib (i_gm s') = match op with OSetCalib c => Some c | _ => g_calib (i_gm s) end;
  e_cam : g_cam (i_gm s') = match op with OSetCam c => Some c | _ => g_cam (i_gm s) end;
  e_feat : g_feat (i_gm s') = match op with OStereo k f => g_feat (i_gm s) ++ [(k, f)] | _ => g_feat (i_gm s) end;
  e_pend : forall k f, In f (mentry k (g_new_fac (i_gm s'))) -> In f (mentry k (g_new_fac (i_gm s))) \/ In (k, f) (creations s op) }.

Lemma set_small c k v g : let g' := fst (gm_set c k v g) in
  g_calib g' = g_calib g /\ g_cam g' = g_cam g /\ g_feat g' = g_feat g.
Proof. cbv zeta. conj; apply set_frame; reflexivity. Qed.

Lemma stereo_small k f g : let g' := fst (gm_create_stereo bp k f g) in
  g_calib g' = g_calib g /\ g_cam g' = g_cam g.
Proof. cbv zeta. conj; apply stereo_frame; reflexivity. Qed.

Lemma plain_small s op : rdy s -> wf_op s op -> plain op = true ->
  let s' := fst (gm_step bp s op) in
  i_opt s' = i_opt s /\
  g_calib (i_gm s') = match op with OSetCalib c => Some c | _ => g_calib (i_gm s) end /\
  g_cam (i_gm s') = match op with OSetCam c => Some c | _ => g_cam (i_gm s) end /\
  g_feat (i_gm s') = match op with OStereo k f => g_feat (i_gm s) ++ [(k, f)] | _ => g_feat (i_gm s) end.
Proof.
  intros R W Hp s'. pose proof (inv_gm _ (r_inv _ R)) as Ig.
  destruct op; try discriminate Hp; subst s'; simpl gm_step; unfold lift; gsimp;
    try (split; [reflexivity|]; apply set_small); try (conj; reflexivity).
  - split; [reflexivity|]. unfold gm_set_navstate. pose proof (set_small SymX k p (i_gm s)) as A. cbv zeta in A.
    destruct (gm_set SymX k p (i_gm s)) as [g1 [u| |]]; cbn [fst] in *; auto.
    pose proof (set_small SymV k v g1) as B. cbv zeta in B. destruct A as (-> & -> & ->) in B. exact B.
  - unfold gm_increment. destruct (sget name (g_keys (i_gm s))) as [[? ?]|]; conj; reflexivity.
  - unfold gm_set_timestamp. destruct (0 <=? k); conj; reflexivity.
  - destruct kind; gsimp; try (conj; reflexivity);
      unfold gm_create; destruct (sym_keys _); conj; reflexivity.
  - split; [reflexivity|]. pose proof (stereo_succeeds bp k features s R W) as Hok.
    destruct (gm_create_stereo_exact bp k features (i_gm s) Ig) as (_&_&_&_&_&_&_&Ec&Em&Ef); [congruence|].
    destruct W as (Sf & Hids & Hlt & _). destruct (stored k features (i_gm s) Ig Hlt) as [Hm Hp'].
    rewrite Hm, Hp' in Ef. auto.
  - split; [reflexivity|]. pose proof (gm_update_all_frame l (i_gm s)) as F. cbv zeta in F. tauto.
Qed.

Lemma extract_small o m g : g_calib (fst (igm_extract o m g)) = g_calib g /\ g_cam (fst (igm_extract o m g)) = g_cam g.
Proof.
  unfold igm_extract. destruct (o_values_first o).
  - pose proof (gm_extract_values_frame (o_end o) m g) as F. cbv zeta in F.
    destruct (gm_extract_values (o_end o) m g) as [g1 [v| |]]; cbn [fst] in *; try tauto.
    pose proof (gm_extract_factors_frame m g1) as F2. cbv zeta in F2. destruct (gm_extract_factors m g1) as [g2 f].
    cbn [fst] in *. intuition congruence.
  - pose proof (gm_extract_factors_frame m g) as F. cbv zeta in F. destruct (gm_extract_factors m g) as [g1 f].
    pose proof (gm_extract_values_frame (o_end o) m g1) as F2. cbv zeta in F2.
    cbn [fst] in *. destruct (gm_extract_values (o_end o) m g1) as [g2 [v| |]]; cbn [fst] in *; intuition congruence.
Qed.

Lemma state_handed m g c n : state_sym c = true -> handed m g c n = (n <=? m).
Proof. destruct c; try reflexivity. discriminate. Qed.

Lemma step_eff s op : rdy s -> wf_op s op ->
  exists s' x, gm_step bp s op = (s', Ok x) /\ rdy s' /\ eff s op s'.
Proof.
  intros R W. destruct (wf_step bp s op R W) as [[x Hx] R']. pose proof (r_inv _ R) as I.
  pose proof (inv_gm _ I) as Ig.
  exists (fst (gm_step bp s op)), x. split; [rewrite <- Hx; apply surjective_pairing|].
  split; [exact R'|]. assert (NU : snd (gm_step bp s op) <> UB) by congruence.
  pose proof (step_keys bp s op I) as H1. pose proof (step_ts bp s op I) as H2.
  pose proof (step_writes bp s op I NU) as H3.
  destruct (plain op) eqn:Hp.
  - destruct (plain_small s op R W Hp) as (P1 & P2 & P3 & P4). pose proof (plain_vars bp s op Hp) as P5.
    assert (OB : opt_bound op = None) by (destruct op; try discriminate; reflexivity).
    constructor; auto.
    + intros v. rewrite H3, mkeys_apply_writes by (destruct Ig; auto). rewrite OB. tauto.
    + rewrite OB. exact P1.
    + rewrite P5. auto.
    + intros m c k E. congruence.
    + intros k f. apply (pending_after bp); auto.
  - destruct op; try discriminate Hp; [|inversion W]. simpl gm_step in *.
    pose proof W as (He & Hs & Hm & _). apply idx_ok_lim in Hm.
    destruct (optimise_succeeds bp s o m R W) as (_ & _ & Ho).
    destruct (optimise_ids_feat bp o m s I) as (_ & Of & _ & Ov).
    destruct (extract_ok o m (i_gm s) Ig (r_ids _ R) He Hm) as (g1 & fs & vs & E & G).
    pose proof (rdy_accepts bp s o m g1 fs vs R W E) as Hup.
    destruct (extract_small o m (i_gm s)) as [X1 X2].
    destruct (igm_optimise_split o m s I) as [(g1' & E' & Q)|[(g1' & E' & Q)|[(g1' & fs' & vs' & E' & A & Q)|(g1' & fs' & vs' & E' & A & Q)]]];
      rewrite E in E'; inversion E'; subst; clear E'.
    { unfold accepted in A. rewrite E, Hup, Hs in A. discriminate. }
    cbv zeta in Q. destruct Q as (_ & I3 & Q). rewrite (r_marg _ R) in Q, I3. simpl andb in Q.
    destruct (igm_extract_spec o m (i_gm s) g1' fs' vs' Ig E) as (_ & _ & Hnf & _).
    pose proof (gm_update_all_frame (estimate o (i_vars s ++ mkeys vs')) g1') as F. cbv zeta in F.
    rewrite E in X1, X2. cbn [fst] in X1, X2. unfold obs in *.
    constructor; auto.
    + intros v. rewrite Ov. cbn [opt_bound]. intuition discriminate.
    + intros v Hv. rewrite Q. cbn [fst i_vars]. apply in_or_app. auto.
    + intros m0 c k Em Hc Hk Hle Hv. injection Em as <-. rewrite Q. cbn [fst i_vars]. apply in_or_app.
      destruct (r_cover _ R _ Hv) as [H|H]; [auto|right]. specialize (G c k Hk). rewrite state_handed in G by auto.
      replace (k <=? m) with true in G by lia. apply some_key. rewrite G. apply some_key. exact H.
    + rewrite Q. cbn [fst i_gm]. intuition congruence.
    + rewrite Q. cbn [fst i_gm]. intuition congruence.
    + intros k f Hf. left. rewrite Q in Hf. cbn [fst i_gm] in Hf. destruct F as (_&_&_&_&_&_&_&_&F&_).
      rewrite F, Hnf in Hf. rewrite (mentry_filter (fun x => m <? x)) in Hf. destruct (m <? k); [exact Hf|inversion Hf].
Qed.

End Eff.
