(* Critical sections of the five callbacks run between sections in a healthy state. *)
From Verif Require Import Base GmModel GmSpec GmInv GmProofs GmFactors GmValues GmHist GmKeys GmStereo GmIds GmReady.
From Verif Require Import BeModel BeSpec BeEff BeAbs BeInv.

Section Sect.
Variable bp : Z -> Z -> Z -> Z -> Z.
Variable c : config.
Variable tau : Z -> Z.

Notation abs := (abs c tau).
Notation wp := (wp bp).

(* the key counters between sections: K optimised, u imu, r registration, s stereo, b barometer, cb the number
   of barometer biases that have values *)
Definition phase (K u r s b cb : Z) : Prop :=
  (K = -1 /\ u = 0 /\ r = 0 /\ s = -1 /\ b = 0 /\ cb = 0) \/
  (0 <= K /\ K <= u <= K + 1 /\ u < int_max /\
   (if c_reg c then K <= r <= u else r = 0) /\
   (if c_stereo c then -1 <= s <= u /\ (1 <= K -> K <= s) else s = -1) /\
   (if c_baro c then 0 <= cb <= b /\ b <= u + 1 else b = 0 /\ cb = 0) /\
   (u = K + 1 -> (c_reg c = true /\ r = K) \/ (c_stereo c = true /\ s <= K))).

Definition nn (K u : Z) : Z := if K <? 0 then 0 else u + 1.

(* the log of graph manager calls *)
Record lview (K u r s cb : Z) (log : list gmop) : Prop := {
  lv_opts : opts log = zrange 0 K;
  lv_imu : crts FImu log = if c_imu c then zrange 1 u else [];
  lv_reg : crts FBetweenPose log = zrange 1 r;
  lv_bias : crts FBaroBias log = zrange 1 (cb - 1);
  lv_incs : stereo_incs log = s + 1;
  lv_before : before c log }.

(* the publications *)
Record eview (K u : Z) (ev : list event) : Prop := {
  ev_odoms : odoms ev = map (fun k => (k, tau k)) (zrange 0 K);
  ev_trans : trans ev = map tau (zrange 0 u) }.

Record rest (K u r s b cb : Z) (fr : list (omap Z)) (cal : bool) (g : igm) (log : list gmop) (ev : list event) : Prop := {
  rs_abs : abs (mkA K u r s b (nn K u) (nn K u) (nn K u) cb (nn K u) s fr cal) [] g;
  rs_phase : phase K u r s b cb;
  rs_log : lview K u r s cb log;
  rs_ev : eview K (if K <? 0 then -1 else u) ev }.

Definition skip_op (op : gmop) : bool :=
  match op with
  | OOptimise _ _ => false
  | OIncrement n => negb (String.eqb n "stereo")
  | OCreate FImu _ _ | OCreate FBetweenPose _ _ | OCreate FBaroBias _ _ => false
  | _ => true
  end.

Lemma lv_skip K u r s cb log op : skip_op op = true -> lview K u r s cb log -> lview K u r s cb (log ++ [op]).
Proof.
  intros H L. destruct L. constructor; rewrite ?opts_app, ?crts_app, ?incs_app.
  - destruct op; try discriminate; cbn; rewrite ?app_nil_r; auto.
  - destruct op; try discriminate; cbn; rewrite ?app_nil_r; auto. destruct kind; try discriminate; cbn; rewrite ?app_nil_r; auto.
  - destruct op; try discriminate; cbn; rewrite ?app_nil_r; auto. destruct kind; try discriminate; cbn; rewrite ?app_nil_r; auto.
  - destruct op; try discriminate; cbn; rewrite ?app_nil_r; auto. destruct kind; try discriminate; cbn; rewrite ?app_nil_r; auto.
  - destruct op; try discriminate; unfold stereo_incs at 2; cbn [filter]; try (cbn; lia). cbn in H. destruct (String.eqb name "stereo"); [discriminate|cbn; lia].
  - apply before_snoc; auto. intros o k ->. discriminate.
Qed.
Lemma lv_u K u u' r s cb log : c_imu c = false -> lview K u r s cb log -> lview K u' r s cb log.
Proof. intros E L. destruct L. rewrite E in *. constructor; auto. rewrite E. auto. Qed.
Lemma lv_c_imu K u r s cb log k m : c_imu c = true -> 0 <= u -> k = u + 1 -> lview K u r s cb log -> lview K k r s cb (log ++ [OCreate FImu k m]).
Proof.
  intros E Hu -> L. destruct L. rewrite E in *. constructor; rewrite ?opts_app, ?crts_app, ?incs_app; cbn; rewrite ?app_nil_r; auto; try lia.
  - rewrite E, zrange_snoc by lia. congruence.
  - apply before_snoc; auto. discriminate.
Qed.
Lemma lv_c_reg K u r s cb log k m : 0 <= r -> k = r + 1 -> lview K u r s cb log -> lview K u k s cb (log ++ [OCreate FBetweenPose k m]).
Proof.
  intros Hu -> L. destruct L. constructor; rewrite ?opts_app, ?crts_app, ?incs_app; cbn; rewrite ?app_nil_r; auto; try lia.
  - rewrite zrange_snoc by lia. congruence.
  - apply before_snoc; auto. discriminate.
Qed.
Lemma lv_c_bias K u r s cb log k m : 1 <= cb -> k = cb -> lview K u r s cb log -> lview K u r s (k + 1) (log ++ [OCreate FBaroBias k m]).
Proof.
  intros Hu -> L. destruct L. constructor; rewrite ?opts_app, ?crts_app, ?incs_app; cbn; rewrite ?app_nil_r; auto; try lia.
  - replace (cb + 1 - 1) with (cb - 1 + 1) by lia. rewrite zrange_snoc by lia. replace (cb - 1 + 1) with cb by lia. congruence.
  - apply before_snoc; auto. discriminate.
Qed.
Lemma lv_cb K u r s log : lview K u r s 0 log -> lview K u r s 1 log.
Proof. intros L. destruct L. constructor; auto. Qed.
Lemma lv_inc K u r s cb log : lview K u r s cb log -> lview K u r (s + 1) cb (log ++ [OIncrement "stereo"]).
Proof.
  intros L. destruct L. constructor; rewrite ?opts_app, ?crts_app, ?incs_app; cbn; rewrite ?app_nil_r; auto; try lia.
  apply before_snoc; auto. discriminate.
Qed.
Lemma lv_opt K u r s cb log k o : -1 <= K -> k = K + 1 ->
  (1 <= k -> (c_imu c = true -> k = u) /\ (c_reg c = true -> k = r) /\ (c_stereo c = true -> k = s)) ->
  lview K u r s cb log -> lview k u r s cb (log ++ [OOptimise o k]).
Proof.
  intros HK -> Hf L. destruct L. constructor; rewrite ?opts_app, ?crts_app, ?incs_app; cbn; rewrite ?app_nil_r; auto; try lia.
  - rewrite zrange_snoc by lia. congruence.
  - apply before_snoc; auto. intros o' k' E. injection E as <- <-. split; [rewrite lv_opts0; f_equal; lia|].
    intros H1. specialize (Hf H1). destruct Hf as (F1 & F2 & F3). conj; intros Hc.
    + rewrite lv_imu0, Hc, (F1 Hc). reflexivity.
    + rewrite lv_reg0, (F2 Hc). reflexivity.
    + specialize (F3 Hc). lia.
Qed.

Lemma ev_trans_snoc K u ev t : -1 <= u -> t = tau (u + 1) -> eview K u ev -> eview K (u + 1) (ev ++ [ETransform t]).
Proof.
  intros Hu -> E. destruct E. constructor; rewrite ?odoms_app, ?trans_app; cbn; rewrite ?app_nil_r; auto.
  rewrite zrange_snoc, map_app by lia. cbn. congruence.
Qed.
Lemma ev_pub K u ev k g evs : -1 <= K -> k = K + 1 -> published tau k g evs -> eview K u ev -> eview k u (ev ++ evs).
Proof.
  intros HK -> P E. destruct (published_odoms _ _ _ _ P) as [P1 P2]. destruct E. constructor; rewrite ?odoms_app, ?trans_app, ?P1, ?P2, ?app_nil_r; auto.
  rewrite zrange_snoc, map_app by lia. cbn. congruence.
Qed.

Lemma nn_pos K u : 0 <= K -> nn K u = u + 1.
Proof. intros H. unfold nn. replace (K <? 0) with false by lia. reflexivity. Qed.
Lemma nn_neg K u : K < 0 -> nn K u = 0.
Proof. intros H. unfold nn. replace (K <? 0) with true by lia. reflexivity. Qed.

Ltac bnd := cbn [cnt aX aV aB aP aT a_opt a_u a_r a_s a_b a_last]; lia.
Ltac rget H cc k := let v := fresh "v" in let E := fresh "E" in
  destruct (abs_get _ _ _ _ _ cc k H eq_refl) as [v E]; [bnd|bnd|]; eapply wp_rd; [exact E|]; cbv beta.
Ltac rkey H := eapply wp_rd; [eapply abs_keyq; [exact H|reflexivity]|]; cbv beta; cbn [a_u a_r a_s a_b].
Ltac rts H := eapply wp_rd; [eapply abs_tsq; [exact H|bnd|bnd]|]; cbv beta.
Ltac nxt g H := intros g H; cbn in H.
Ltac fvars := cbn [factor_vars In]; let cc := fresh "cc" in let i := fresh "i" in let E := fresh in
  intros cc i E; repeat destruct E as [E|E]; try contradiction; injection E as <- <-.
Ltac bools := repeat match goal with |- context [if ?b then _ else _] => destruct b end.

Lemma S_init K u r s b cb fr cal g log ev t p v bi n : rest K u r s b cb fr cal g log ev -> K = -1 ->
  t = tau 0 -> good n ->
  wp (p_init c t p v bi true true true n) g log ev (fun g' log' ev' o => o = ODone /\ rest 0 0 0 (-1) 0 0 fr cal g' log' ev').
Proof.
  intros R HK Ht Hn. destruct (rs_phase _ _ _ _ _ _ _ _ _ _ _ R) as [(_ & -> & -> & -> & -> & ->)|X]; [|lia]. subst K.
  pose proof (rs_abs _ _ _ _ _ _ _ _ _ _ _ R) as H. rewrite nn_neg in H by lia.
  unfold p_init.
  eapply (wp_set _ _ _ SymB); [exact H|reflexivity|bnd|easy|]. nxt g1 H1.
  eapply (wp_set _ _ _ SymX); [exact H1|reflexivity|bnd|easy|]. nxt g2 H2.
  eapply wp_ts; [exact H2|exact Ht|bnd|]. nxt g3 H3.
  eapply (wp_set _ _ _ SymV); [exact H3|reflexivity|bnd|easy|]. nxt g4 H4.
  cbn [negb]. rget H4 SymX 0.
  eapply (wp_create _ _ _ []); [exact H4|discriminate|auto|fvars; easy|fvars; left; split; [reflexivity|bnd]|].
  nxt g5 H5.
  assert (L : lview (-1) 0 0 (-1) 0 (((((log ++ [setop SymB 0 bi]) ++ [setop SymX 0 p]) ++ [OSetTimestamp 0 t]) ++ [setop SymV 0 v]) ++ [OCreate FPriorPose 0 v0])).
  { repeat (apply lv_skip; [reflexivity|]). apply (rs_log _ _ _ _ _ _ _ _ _ _ _ R). }
  assert (Rest : forall g log, abs (mkA (-1) 0 0 (-1) 0 1 1 1 0 1 (-1) fr cal) [] g -> lview (-1) 0 0 (-1) 0 log ->
    wp (PEmit (ETransform t) (p_opt_pub c n 0 (PRet ODone))) g log ev (fun g' log' ev' o => o = ODone /\ rest 0 0 0 (-1) 0 0 fr cal g' log' ev')).
  { intros h lg Hh Lh. apply wp_emit. unfold p_opt_pub.
    eapply wp_optimise; [exact Hh|exact Hn|easy|bnd|bnd|bnd|]. nxt h1 Hh1.
    eapply wp_publish; [exact Hh1|bnd|easy|bnd|bnd|bnd|bnd|]. intros evs P. apply wp_ret. split; [reflexivity|].
    constructor.
    - rewrite nn_pos by lia. exact Hh1.
    - right. conj; try lia; try easy; bools; lia.
    - apply (lv_opt (-1)); auto; lia.
    - apply (ev_pub (-1) 0 _ _ h1); auto; try lia. apply (ev_trans_snoc (-1) (-1)); auto; try lia.
      apply (rs_ev _ _ _ _ _ _ _ _ _ _ _ R). }
  destruct (c_imu c).
  - rget H5 SymV 0.
    eapply (wp_create _ _ _ []); [exact H5|discriminate|auto|fvars; easy|fvars; left; split; [reflexivity|bnd]|].
    nxt g6 H6. rget H6 SymB 0.
    eapply (wp_create _ _ _ []); [exact H6|discriminate|auto|fvars; easy|fvars; left; split; [reflexivity|bnd]|].
    nxt g7 H7. apply Rest; [exact H7|]. apply lv_skip; [reflexivity|]. apply lv_skip; [reflexivity|]. exact L.
  - apply Rest; [exact H5|exact L].
Qed.

Lemma S_imu K u r s b cb fr cal g log ev l t meas n : c_imu c || c_reg c || c_stereo c = true ->
  rest K u r s b cb fr cal g log ev -> 0 <= K ->
  t = tau (u + 1) -> u + 1 < int_max -> good n ->
  wp (p_imu c true l t meas true true n) g log ev (fun g' log' ev' o =>
    (K <> u /\ o = OSleep (LNext 0 false) /\ g' = g /\ log' = log /\ ev' = ev) \/
    (K = u /\ o = ODone /\ exists K', K <= K' /\ rest K' (u + 1) r s b cb fr cal g' log' ev')).
Proof.
  intros live R HK Ht Hu Hn. destruct (rs_phase _ _ _ _ _ _ _ _ _ _ _ R) as [X|(_ & PU & PI & PR & PS & PB & PN)]; [lia|].
  pose proof (rs_abs _ _ _ _ _ _ _ _ _ _ _ R) as H. rewrite nn_pos in H by lia.
  pose proof (rs_log _ _ _ _ _ _ _ _ _ _ _ R) as L. pose proof (rs_ev _ _ _ _ _ _ _ _ _ _ _ R) as EV.
  replace (K <? 0) with false in EV by lia.
  match goal with |- BeInv.wp _ _ _ _ _ ?Q => assert (Rest : wp (p_imu c true (LNext 0 false) t meas true true n) g log ev Q) end.
  { unfold p_imu. cbn [negb]. rkey H. apply wp_read. rewrite (ab_opt _ _ _ _ _ H). cbn [a_opt].
    rewrite Z.add_0_r. destruct (Z.eqb_spec K u) as [EK|NK].
    2:{ cbn [negb]. apply wp_ret. left. auto. }
    cbn [negb]. rget H SymB u.
    eapply wp_inc; [exact H|reflexivity|bnd|]. nxt g1 H1.
    rkey H1. rewrite Z.add_0_r. replace (u + 1 - 1) with u by lia.
    rget H1 SymB u. eapply (wp_set _ _ _ SymB); [exact H1|reflexivity|bnd|lia|]. nxt g2 H2.
    rget H2 SymX u. rget H2 SymV u.
    eapply wp_nav; [exact H2|bnd|bnd|lia|]. nxt g3 H3.
    eapply wp_ts; [exact H3|exact Ht|bnd|]. nxt g4 H4.
    rget H4 SymX u. rget H4 SymX (u + 1). apply wp_emit.
    set (logA := (((log ++ _) ++ _) ++ _) ++ _).
    assert (LA : lview K u r s cb logA).
    { do 4 (apply lv_skip; [reflexivity|]). exact L. }
    assert (EA : eview K (u + 1) (ev ++ [ETransform t])) by (apply ev_trans_snoc; auto; lia).
    assert (H4' : abs (mkA K (u + 1) r s b (u + 1 + 1) (u + 1 + 1) (u + 1 + 1) cb (u + 1 + 1) s fr cal) [] g4).
    { eapply abs_eq; [exact H4|]. f_equal; lia. }
    assert (PH : phase K (u + 1) r s b cb \/ (c_imu c = true /\ c_reg c = false /\ c_stereo c = false)).
    { unfold phase. destruct (c_reg c), (c_stereo c), (c_baro c), (c_imu c); cbn in live; try discriminate; auto; left; right; conj; try lia; intros; first [lia|left; split; [reflexivity|lia]|right; split; [reflexivity|lia]]. }
    destruct (c_imu c) eqn:Ei.
    - eapply (wp_create _ _ _ []); [exact H4'|discriminate|auto|fvars; lia|fvars; left; split; try reflexivity; bnd|].
      intros g5 H5. assert (L5 : lview K (u + 1) r s cb (logA ++ [OCreate FImu (u + 1) meas])) by (apply lv_c_imu with (u := u); auto; lia).
      eapply wp_rd; [eapply abs_minq; exact H5|]. unfold amin. cbn [a_u a_r a_s].
      match goal with |- context [if ?a then _ else _] => destruct a eqn:Em end.
      + apply Z.eqb_eq in Em. assert (Hrs : c_reg c = false /\ c_stereo c = false).
        { destruct (c_reg c), (c_stereo c); split; auto; lia. }
        destruct Hrs as [Er Es]. rewrite Er in PR. rewrite Es in PS.
        unfold p_opt_pub. eapply wp_optimise; [exact H5|exact Hn|lia|bnd|bnd|bnd|]. nxt g6 H6.
        eapply wp_publish; [exact H6|bnd|lia|bnd|bnd|bnd|bnd|]. intros evs P. apply wp_ret. right. split; [auto|]. split; [auto|].
        exists (u + 1). split; [lia|]. constructor.
        * rewrite nn_pos by lia. exact H6.
        * right. rewrite Er, Es. conj; try lia. destruct (c_baro c); lia.
        * apply (lv_opt K); auto; try lia.
        * replace (u + 1 <? 0) with false by lia. eapply (ev_pub K); eauto; lia.
      + apply wp_ret. right. split; [auto|]. split; [auto|]. exists K. split; [lia|]. constructor; auto.
        * rewrite nn_pos by lia. exact H5.
        * destruct PH as [PH|(_ & Er & Es)]; [exact PH|]. rewrite Er, Es in Em. lia.
        * replace (K <? 0) with false by lia. exact EA.
    - apply wp_ret. right. split; [auto|]. split; [auto|]. exists K. split; [lia|]. constructor; auto.
      + rewrite nn_pos by lia. exact H4'.
      + destruct PH as [PH|(X & _)]; [exact PH|congruence].
      + eapply lv_u; eauto.
      + replace (K <? 0) with false by lia. exact EA. }
  destruct l; [|exact Rest]. unfold p_imu in *.
  rkey H. rewrite Z.add_0_r. apply wp_read. rewrite (ab_opt _ _ _ _ _ H). cbn [a_opt]. destruct (K =? u); [exact Rest|].
  rts H. rts H. exact Rest.
Qed.

Lemma bump_same cc k A : k < cnt A cc -> bump cc k A = A.
Proof. destruct A, cc; cbn; intros H; try reflexivity; f_equal; lia. Qed.

Lemma wp_velocity n name k pr A W g p log ev Q : abs A W g -> keyview c A name = Some (k, pr) ->
  1 <= k <= int_max -> k < aX A -> k < aV A -> k < aT A ->
  (forall g' v, abs A W g' -> wp p g' (log ++ [OSetVel k v]) ev Q) -> wp (p_velocity n name p) g log ev Q.
Proof.
  intros H Hk K1 K2 K3 K4 Hp. unfold p_velocity. eapply wp_rd; [eapply abs_keyq; eauto|]. rewrite Z.add_0_r.
  rget H SymX (k - 1). rget H SymX k.
  eapply wp_rd. { unfold gm_time_between. rewrite (abs_tsq c tau A W g k H), (abs_tsq c tau A W g (k - 1) H) by lia. reflexivity. }
  eapply (wp_set _ _ _ SymV); [exact H|reflexivity|bnd|lia|]. intros g' H'. rewrite bump_same in H' by bnd. apply Hp. exact H'.
Qed.

Lemma S_reg K u r s b cb fr cal g log ev t tf n : c_reg c = true ->
  rest K u r s b cb fr cal g log ev -> 0 <= K -> r + 1 <= u -> t = tau (r + 1) -> good n ->
  wp (p_reg c t tf false false n) g log ev (fun g' log' ev' o =>
    o = ODone /\ exists K', K <= K' /\ rest K' u (r + 1) s b cb fr cal g' log' ev').
Proof.
  intros Hc R HK Hr Ht Hn. destruct (rs_phase _ _ _ _ _ _ _ _ _ _ _ R) as [X|(_ & PU & PI & PR & PS & PB & PN)]; [lia|].
  rewrite Hc in PR.
  pose proof (rs_abs _ _ _ _ _ _ _ _ _ _ _ R) as H. rewrite nn_pos in H by lia.
  pose proof (rs_log _ _ _ _ _ _ _ _ _ _ _ R) as L. pose proof (rs_ev _ _ _ _ _ _ _ _ _ _ _ R) as EV.
  replace (K <? 0) with false in EV by lia.
  unfold p_reg. eapply wp_inc; [exact H|cbn; rewrite Hc; reflexivity|bnd|]. nxt g1 H1.
  eapply wp_rd; [eapply abs_keyq; [exact H1|cbn; rewrite Hc; reflexivity]|]. cbn [a_r]. rewrite Z.add_0_r.
  rts H1. rewrite <- Ht, Z.eqb_refl. cbn [negb]. replace (r + 1 - 1) with r by lia. rget H1 SymX r.
  eapply (wp_set _ _ _ SymX); [exact H1|reflexivity|bnd|lia|]. intros g2 H2. rewrite bump_same in H2 by bnd.
  eapply (wp_create _ _ _ []); [exact H2|discriminate|auto|fvars; lia|fvars; left; split; try reflexivity; bnd|].
  intros g3 H3.
  set (logA := ((log ++ _) ++ _) ++ _).
  assert (LA : lview K u (r + 1) s cb logA).
  { apply (lv_c_reg K u r); try lia. do 2 (apply lv_skip; [reflexivity|]). exact L. }
  eapply wp_rd; [eapply abs_minq; exact H3|]. unfold amin. cbn [a_u a_r a_s]. rewrite Hc.
  match goal with |- context [if ?a then _ else _] => destruct a eqn:Em end.
  - apply Z.eqb_eq in Em.
    assert (Hrs : (if c_stereo c then r + 1 <= s else True) /\ u = r + 1 /\ K = r).
    { destruct (c_stereo c); conj; try lia. }
    destruct Hrs as (Es & Eu & EK). subst r.
    eapply wp_optimise; [exact H3|exact Hn|lia|bnd|bnd|bnd|]. nxt g4 H4.
    assert (L4 : lview (K + 1) u (K + 1) s cb (logA ++ [OOptimise (n_opt n (K + 1)) (K + 1)])).
    { apply (lv_opt K); auto; try lia; intros _; conj; intros Hx; try rewrite Hx in Es; lia. }
    assert (Fin : forall lg g5, abs (mkA (K + 1) u (K + 1) s b (u + 1) (u + 1) (u + 1) cb (u + 1) s fr cal) [] g5 ->
      lview (K + 1) u (K + 1) s cb lg ->
      wp (p_publish c (K + 1) (PRet ODone)) g5 lg ev (fun g' log' ev' o =>
         o = ODone /\ exists K', K <= K' /\ rest K' u (K + 1) s b cb fr cal g' log' ev')).
    { intros lg g5 H5 L5. eapply wp_publish; [exact H5|bnd|lia|bnd|bnd|bnd|bnd|]. intros evs P. apply wp_ret. split; [reflexivity|].
      exists (K + 1). split; [lia|]. constructor.
      - rewrite nn_pos by lia. exact H5.
      - right. conj; try lia; rewrite ?Hc; try lia; destruct (c_stereo c), (c_baro c); lia.
      - exact L5.
      - replace (K + 1 <? 0) with false by lia. eapply (ev_pub K); eauto; lia. }
    destruct (c_imu c).
    + apply Fin; [exact H4|exact L4].
    + eapply wp_velocity; [exact H4|cbn; rewrite Hc; reflexivity|lia|bnd|bnd|bnd|]. intros g5 v' H5. apply Fin; [exact H5|].
      apply lv_skip; [reflexivity|exact L4].
  - apply Z.eqb_neq in Em. apply wp_ret. split; [reflexivity|]. exists K. split; [lia|]. constructor; auto.
    + rewrite nn_pos by lia. exact H3.
    + right. rewrite Hc. conj; auto; try lia.
    + replace (K <? 0) with false by lia. exact EV.
Qed.

Lemma abs_raise o u r s b x v bi pp t l l' fr cal W g :
  abs (mkA o u r s b x v bi pp t l fr cal) W g -> l <= l' -> abs (mkA o u r s b x v bi pp t l' fr cal) W g.
Proof.
  intros H Hl. destruct H. constructor; auto. intros j Hj. specialize (ab_last j Hj). cbn [a_last] in *. lia.
Qed.

Lemma S_stereo K u r s b cb fr cal g log ev t fm calib n : c_stereo c = true ->
  rest K u r s b cb fr cal g log ev -> good n ->
  msorted fm -> (forall id, mget id fm <> None -> 0 <= id < 2 ^ 56) -> contiguous (fr ++ [fm]) ->
  wp (p_stereo c true t (Some fm) true calib n) g log ev (fun g' log' ev' o =>
    (nn K u <= s + 1 /\ o = OSleep LFirst /\ g' = g /\ log' = log /\ ev' = ev) \/
    (s + 1 < nn K u /\ t < tau (s + 1) /\ o = ODone /\ g' = g /\ log' = log /\ ev' = ev) \/
    (s + 1 < nn K u /\ t = tau (s + 1) /\ o = ODone /\ exists K', K <= K' /\ rest K' u r (s + 1) b cb (fr ++ [fm]) true g' log' ev') \/
    (s + 1 < nn K u /\ tau (s + 1) < t /\ o = OAgain LFirst /\ exists K', K <= K' /\ rest K' u r (s + 1) b cb fr cal g' log' ev')).
Proof.
  intros Hc R Hn Sf Hids Hcon. pose proof (rs_abs _ _ _ _ _ _ _ _ _ _ _ R) as H. unfold p_stereo. cbn [negb].
  assert (Hs : -1 <= s < int_max).
  { destruct (rs_phase _ _ _ _ _ _ _ _ _ _ _ R) as [X|X]; [unfold int_max; lia|]. rewrite Hc in X. lia. }
  eapply wp_rd; [eapply abs_keyq; [exact H|cbn; rewrite Hc; reflexivity]|]. cbn [a_s].
  eapply wp_rd; [eapply (abs_hasq bp); [exact H|reflexivity|lia]|]. cbn [cnt aX].
  destruct (Z.ltb_spec (s + 1) (nn K u)) as [Hlt|Hge]; cbn [negb].
  2:{ apply wp_ret. left. auto. }
  assert (HK : 0 <= K). { unfold nn in Hlt. destruct (Z.ltb_spec K 0); lia. }
  destruct (rs_phase _ _ _ _ _ _ _ _ _ _ _ R) as [X|(_ & PU & PI & PR & PS & PB & PN)]; [lia|]. rewrite Hc in PS.
  rewrite nn_pos in H, Hlt by lia.
  pose proof (rs_log _ _ _ _ _ _ _ _ _ _ _ R) as L. pose proof (rs_ev _ _ _ _ _ _ _ _ _ _ _ R) as EV.
  replace (K <? 0) with false in EV by lia. rewrite nn_pos by lia.
  rts H. destruct (Z.ltb_spec t (tau (s + 1))) as [Ht|Ht].
  { apply wp_ret. right. left. auto 8. }
  (* the tail common to both branches *)
  match goal with |- BeInv.wp _ _ _ _ _ ?Q =>
  assert (Tail : forall out fr' cal' g2 lg,
    (forall g' lg' ev' K', K <= K' -> rest K' u r (s + 1) b cb fr' cal' g' lg' ev' -> Q g' lg' ev' out) ->
    abs (mkA K u r (s + 1) b (u + 1) (u + 1) (u + 1) cb (u + 1) (s + 1) fr' cal') [] g2 ->
    lview K u r (s + 1) cb lg ->
    wp (rd q_min (fun mk => rd (q_key "stereo" 0) (fun k =>
      if (mk =? k) && (0 <? k) then
        p_opt_pub c n k ((fun rest => if c_imu c then rest else p_velocity n "stereo" rest) (PRet out))
      else PRet out))) g2 lg ev Q) end.
  { intros out fr' cal' g2 lg HQ H2 L2.
    eapply wp_rd; [eapply abs_minq; exact H2|]. unfold amin. cbn [a_u a_r a_s]. rewrite Hc.
    eapply wp_rd; [eapply abs_keyq; [exact H2|cbn; rewrite Hc; reflexivity]|]. cbn [a_s]. rewrite Z.add_0_r.
    match goal with |- context [if ?a then _ else _] => destruct a eqn:Em end.
    - apply andb_prop in Em. destruct Em as [Em Ep]. apply Z.eqb_eq in Em. apply Z.ltb_lt in Ep.
      assert (Hrs : (if c_reg c then s + 1 <= r else True) /\ u = s + 1 /\ K = s).
      { destruct (c_reg c); conj; try lia. }
      destruct Hrs as (Er & Eu & EK). subst s.
      unfold p_opt_pub. eapply wp_optimise; [exact H2|exact Hn|lia|bnd|bnd|bnd|]. nxt g4 H4.
      eapply wp_publish; [exact H4|bnd|lia|bnd|bnd|bnd|bnd|]. intros evs P.
      assert (L4 : lview (K + 1) u r (K + 1) cb (lg ++ [OOptimise (n_opt n (K + 1)) (K + 1)])).
      { apply (lv_opt K); auto; try lia; intros _; conj; intros Hx; try rewrite Hx in Er; lia. }
      assert (Fin : forall lg g5, abs (mkA (K + 1) u r (K + 1) b (u + 1) (u + 1) (u + 1) cb (u + 1) (K + 1) fr' cal') [] g5 ->
        lview (K + 1) u r (K + 1) cb lg -> rest (K + 1) u r (K + 1) b cb fr' cal' g5 lg (ev ++ evs)).
      { intros lg' g5 H5 L5. constructor.
        - rewrite nn_pos by lia. exact H5.
        - right. conj; try lia; rewrite ?Hc; try lia; destruct (c_reg c), (c_baro c); lia.
        - exact L5.
        - replace (K + 1 <? 0) with false by lia. eapply (ev_pub K); eauto; lia. }
      destruct (c_imu c).
      + apply wp_ret. apply (HQ _ _ _ (K + 1)); [lia|]. apply Fin; [exact H4|exact L4].
      + eapply wp_velocity; [exact H4|cbn; rewrite Hc; reflexivity|lia|bnd|bnd|bnd|]. intros g5 v' H5. apply wp_ret.
        apply (HQ _ _ _ (K + 1)); [lia|]. apply Fin; [exact H5|]. apply lv_skip; [reflexivity|exact L4].
    - apply wp_ret. apply (HQ _ _ _ K); [lia|]. constructor; auto.
      + rewrite nn_pos by lia. exact H2.
      + right. rewrite Hc. conj; auto; try lia.
      + replace (K <? 0) with false by lia. exact EV. }
  destruct (Z.eqb_spec t (tau (s + 1))) as [Heq|Hne].
  - unfold p_add_stereo. eapply wp_inc; [exact H|cbn; rewrite Hc; reflexivity|lia|]. nxt g1 H1.
    eapply wp_rd; [eapply abs_keyq; [exact H1|cbn; rewrite Hc; reflexivity]|]. cbn [a_s]. rewrite Z.add_0_r.
    rts H1. rewrite Heq, Z.eqb_refl. cbn [negb]. apply wp_read.
    assert (Store : forall g2 lg, abs (mkA K u r (s + 1) b (u + 1) (u + 1) (u + 1) cb (u + 1) s fr true) [] g2 -> lview K u r (s + 1) cb lg ->
      forall k Q, (forall g3, abs (mkA K u r (s + 1) b (u + 1) (u + 1) (u + 1) cb (u + 1) (s + 1) (fr ++ [fm]) true) [] g3 ->
         wp k g3 (lg ++ [OStereo (s + 1) fm]) ev Q) ->
      wp (PCall (OStereo (s + 1) fm) (rd (q_ts (s + 1)) (fun _ => k))) g2 lg ev Q).
    { intros g2 lg H2 L2 k Q Hk.
      assert (Wf : wf_op g2 (OStereo (s + 1) fm)).
      { cbn [wf_op]. split; [exact Sf|]. split; [exact Hids|]. split.
        { intros j Hj. apply (ab_last _ _ _ _ _ H2) in Hj. cbn [a_last] in Hj. lia. }
        rewrite (ab_fr _ _ _ _ _ H2). cbn [a_fr]. split; [exact Hcon|]. intros Hne.
        assert (Hs0 : 0 <= s).
        { destruct (g_feat (i_gm g2)) as [|[j0 f0] rest0] eqn:Ef; [congruence|].
          assert (X : 0 <= j0 <= s).
          { apply (ab_last _ _ _ _ _ H2 j0). rewrite Ef. cbn. rewrite Z.eqb_refl. discriminate. }
          lia. }
        split; [pose proof (idx_int (s + 1)) as X; rewrite idx_ok_lim in X; split; [lia|apply X; lia]|].
        split; [apply (abs_has _ _ _ _ _ _ _ H2); [reflexivity|lia|bnd]|].
        split; [apply (abs_has _ _ _ _ _ _ _ H2); [reflexivity|lia|bnd]|].
        split; [apply (ab_cam _ _ _ _ _ H2 Hc)|apply (ab_cal _ _ _ _ _ H2); reflexivity]. }
      eapply wp_call; [exact H2|exact Wf|intros g' E R'; eapply abs_stereo; eauto; cbn; try lia; reflexivity|].
      intros g3 H3. cbn in H3. rts H3. apply Hk. exact H3. }
    assert (L1 : lview K u r (s + 1) cb (log ++ [OIncrement "stereo"])) by (apply lv_inc; exact L).
    assert (Q3 : forall g' lg' ev' K', K <= K' -> rest K' u r (s + 1) b cb (fr ++ [fm]) true g' lg' ev' ->
      (u + 1 <= s + 1 /\ ODone = OSleep LFirst /\ g' = g /\ lg' = log /\ ev' = ev) \/
      (s + 1 < u + 1 /\ tau (s + 1) < tau (s + 1) /\ ODone = ODone /\ g' = g /\ lg' = log /\ ev' = ev) \/
      (s + 1 < u + 1 /\ tau (s + 1) = tau (s + 1) /\ ODone = ODone /\ exists K', K <= K' /\ rest K' u r (s + 1) b cb (fr ++ [fm]) true g' lg' ev') \/
      (s + 1 < u + 1 /\ tau (s + 1) < tau (s + 1) /\ ODone = OAgain LFirst /\ exists K', K <= K' /\ rest K' u r (s + 1) b cb fr cal g' lg' ev')).
    { intros. right. right. left. eauto 6. }
    rewrite Heq in Tail. pose proof (ab_cal _ _ _ _ _ H1) as Cal. cbn [a_cal] in Cal.
    destruct (g_calib (i_gm g1)) eqn:Ecal.
    + assert (cal = true) by (apply Cal; congruence). subst cal.
      apply Store; [exact H1|exact L1|]. intros g3 H3. eapply (Tail ODone (fr ++ [fm]) true); [exact Q3|exact H3|].
      apply lv_skip; [reflexivity|exact L1].
    + eapply wp_cal; [exact H1|]. nxt g2 H2. assert (L2 := lv_skip K u r (s + 1) cb _ (OSetCalib calib) eq_refl L1).
      apply Store; [exact H2|exact L2|]. intros g3 H3. eapply (Tail ODone (fr ++ [fm]) true); [exact Q3|exact H3|].
      apply lv_skip; [reflexivity|exact L2].
  - eapply wp_inc; [exact H|cbn; rewrite Hc; reflexivity|lia|]. nxt g1 H1.
    apply (abs_raise _ _ _ _ _ _ _ _ _ _ _ (s + 1)) in H1; [|lia].
    eapply (Tail (OAgain LFirst) fr cal); [|exact H1|apply lv_inc; exact L].
    intros g' lg' ev' K' HK' R'. right. right. right. conj; try lia; eauto.
Qed.
Lemma chain_wp rest' o u r s b x v bi t l fr cal W Q ev : forall n k g log, 1 <= k ->
  (forall i, 0 <= i < k + Z.of_nat n -> In (raw SymP i) W) -> k + Z.of_nat n <= int_max ->
  abs (mkA o u r s b x v bi k t l fr cal) W g -> lview o u r s k log ->
  (forall g' log', abs (mkA o u r s b x v bi (k + Z.of_nat n) t l fr cal) W g' -> lview o u r s (k + Z.of_nat n) log' ->
     crts FBaro log' = crts FBaro log -> crts FPriorBaro log' = crts FPriorBaro log -> wp rest' g' log' ev Q) ->
  wp (p_chain n k rest') g log ev Q.
Proof.
  induction n as [|n IH]; intros k g log Hk HW Hi H L Hp.
  - cbn [p_chain]. apply Hp; rewrite ?Z.add_0_r; auto.
  - cbn [p_chain]. eapply (wp_create _ _ _ W); [exact H|discriminate|auto|fvars; lia|fvars; right; apply HW; lia|].
    intros g1 H1. rget H1 SymP (k - 1).
    eapply (wp_set _ _ _ SymP); [exact H1|reflexivity|bnd|lia|]. nxt g2 H2.
    apply IH; auto; try lia.
    + intros i Hii. apply HW. lia.
    + eapply abs_eq; [exact H2|]. f_equal. lia.
    + apply lv_skip; [reflexivity|]. apply (lv_c_bias _ _ _ _ k); auto.
    + replace (k + 1 + Z.of_nat n) with (k + Z.of_nat (S n)) by lia. intros g' log' A1 A2 A3 A4. apply Hp; auto.
      * rewrite A3, !crts_app. cbn. rewrite !app_nil_r. reflexivity.
      * rewrite A4, !crts_app. cbn. rewrite !app_nil_r. reflexivity.
Qed.

Lemma S_baro K u r s b cb fr cal g log ev l t pr n j : c_baro c = true -> (forall i k, 0 <= i < k -> tau i < tau k) ->
  rest K u r s b cb fr cal g log ev -> t = tau j -> b <= j -> good n ->
  (l = LFirst /\ cb = b \/ exists inner, l = LNext cb inner) ->
  wp (p_baro true l t pr true true n) g log ev (fun g' log' ev' o =>
    (nn K u <= b /\ o = OSleep (LNext cb false) /\ g' = g /\ log' = log /\ ev' = ev) \/
    (b < nn K u /\ b < j /\ o = OAgain (LNext cb true) /\ rest K u r s (b + 1) cb fr cal g' log' ev' /\
       crts FBaro log' = crts FBaro log /\ crts FPriorBaro log' = crts FPriorBaro log) \/
    (b < nn K u /\ b = j /\ o = ODone /\ rest K u r s (b + 1) (b + 1) fr cal g' log' ev' /\
       crts FBaro log' = crts FBaro log ++ [b] /\
       crts FPriorBaro log' = crts FPriorBaro log ++ (if cb =? 0 then [b] else []))).
Proof.
  intros Hc mono R Ht Hbj Hn Hl. pose proof (rs_abs _ _ _ _ _ _ _ _ _ _ _ R) as H.
  assert (Hb : 0 <= cb <= b /\ b <= int_max).
  { destruct (rs_phase _ _ _ _ _ _ _ _ _ _ _ R) as [X|X]; [unfold int_max; lia|]. rewrite Hc in X. lia. }
  unfold p_baro. eapply wp_rd; [eapply abs_keyq; [exact H|cbn; rewrite Hc; reflexivity]|]. cbn [a_b]. rewrite Z.add_0_r. cbv zeta.
  replace (match l with LFirst => b | LNext x _ => x end) with cb by (destruct Hl as [[-> ->]|[inner ->]]; reflexivity).
  cbn [negb andb].
  eapply wp_rd; [eapply (abs_hasq bp); [exact H|reflexivity|lia]|]. cbn [cnt aX].
  destruct (Z.ltb_spec b (nn K u)) as [Hlt|Hge]; cbn [negb].
  2:{ apply wp_ret. left. auto. }
  assert (HK : 0 <= K). { unfold nn in Hlt. destruct (Z.ltb_spec K 0); lia. }
  destruct (rs_phase _ _ _ _ _ _ _ _ _ _ _ R) as [X|(_ & PU & PI & PR & PS & PB & PN)]; [lia|]. rewrite Hc in PB.
  rewrite nn_pos in H, Hlt by lia.
  pose proof (rs_log _ _ _ _ _ _ _ _ _ _ _ R) as L. pose proof (rs_ev _ _ _ _ _ _ _ _ _ _ _ R) as EV. rewrite nn_pos by lia.
  rts H. subst t. destruct (Z.ltb_spec (tau b) (tau j)) as [Hj|Hj].
  - assert (b < j). { destruct (Z.eq_dec b j) as [->|]; lia. }
    eapply wp_inc; [exact H|cbn; rewrite Hc; reflexivity|lia|]. nxt g1 H1. apply wp_ret. right. left.
    conj; auto; try (rewrite crts_app; cbn; apply app_nil_r). constructor.
    + rewrite nn_pos by lia. exact H1.
    + right. rewrite Hc. conj; auto; lia.
    + apply lv_skip; [reflexivity|exact L].
    + exact EV.
  - assert (b = j). { destruct (Z.eq_dec b j) as [|]; [assumption|]. specialize (mono b j). lia. } subst j.
    unfold p_baro_body. eapply wp_rd; [eapply abs_keyq; [exact H|cbn; rewrite Hc; reflexivity]|]. cbn [a_b]. rewrite Z.add_0_r.
    rts H. rewrite Z.eqb_refl. cbn [negb].
    set (W := map (raw SymP) (zrange 0 b)).
    assert (HW : forall i, 0 <= i <= b -> In (raw SymP i) W).
    { intros i Hi. apply in_map, in_zrange. exact Hi. }
    eapply (wp_create _ _ _ W); [exact H|discriminate|intros ? []|fvars; lia|fvars; [left; split; [reflexivity|bnd]|right; apply HW; lia]|].
    intros g1 H1.
    match goal with |- BeInv.wp _ _ _ _ _ ?Q =>
    assert (Chain : forall k g2 lg, crts FBaro lg = crts FBaro log ++ [b] ->
      crts FPriorBaro lg = crts FPriorBaro log ++ (if cb =? 0 then [b] else []) -> 1 <= k -> k = Z.max 1 cb -> abs (mkA K u r s b (u + 1) (u + 1) (u + 1) k (u + 1) s fr cal) W g2 ->
      lview K u r s k lg ->
      wp (p_chain (Z.to_nat (b - Z.max 1 cb + 1)) (Z.max 1 cb) (PCall (OIncrement "barometer") (PRet ODone))) g2 lg ev Q) end.
    { intros k g2 lg CB CP Hk Ek H2 L2. subst k. eapply chain_wp; [exact Hk| | |exact H2|exact L2|].
      + intros i Hi. apply HW. lia.
      + lia.
      + intros g3 lg3 H3 L3 CB' CP'.
        assert (Ec : Z.max 1 cb + Z.of_nat (Z.to_nat (b - Z.max 1 cb + 1)) = Z.max 1 (b + 1)) by lia.
        rewrite Ec in H3, L3. replace (Z.max 1 (b + 1)) with (b + 1) in * by lia.
        apply abs_paid in H3.
        2:{ intros w Hw. apply in_map_iff in Hw. destruct Hw as (i & <- & Hi). apply in_zrange in Hi.
            eapply (abs_has _ _ _ _ _ SymP); [exact H3|reflexivity|lia|bnd]. }
        eapply wp_inc; [exact H3|cbn; rewrite Hc; reflexivity|lia|]. nxt g4 H4. apply wp_ret. right. right.
        conj; auto; try (rewrite crts_app; cbn; rewrite app_nil_r; congruence). constructor.
        * rewrite nn_pos by lia. exact H4.
        * right. rewrite Hc. conj; auto; lia.
        * apply lv_skip; [reflexivity|exact L3].
        * exact EV. }
    destruct (Z.eqb_spec cb 0) as [E0|N0].
    + eapply (wp_set _ _ _ SymP); [exact H1|reflexivity|bnd|lia|]. nxt g2 H2. cbn [negb].
      eapply (wp_create _ _ _ W); [exact H2|discriminate|auto|fvars; lia|fvars; right; apply HW; lia|].
      intros g3 H3. apply (Chain 1); try lia.
      * rewrite !crts_app. cbn. rewrite !app_nil_r. reflexivity.
      * rewrite !crts_app. cbn. rewrite !app_nil_r. reflexivity.
      * eapply abs_eq; [exact H3|]. f_equal. lia.
      * do 3 (apply lv_skip; [reflexivity|]). apply lv_cb. rewrite <- E0. exact L.
    + apply (Chain cb); try lia.
      { rewrite !crts_app. cbn. reflexivity. }
      { rewrite !crts_app. replace (cb =? 0) with false by lia. cbn. reflexivity. }
      { exact H1. } apply lv_skip; [reflexivity|]. exact L.
Qed.
End Sect.
