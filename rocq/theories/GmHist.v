(* History invariants: pending landmark ids (C05), marginalisation (C13, C14), named keys (C07, C08),
   timestamps (C09). *)
From Verif Require Import Base GmModel GmSpec GmInv GmProofs GmFactors GmValues.

Lemma elems_ext {A} (m m' : omap (list A)) :
  msorted m -> msorted m' -> (forall k, mentry k m = mentry k m') -> elems m = elems m'.
Proof.
  intros S S' H. rewrite <- !flat_snd. f_equal. apply ksorted_ext; auto using flat_sorted.
  intros k. rewrite !flat_at by auto. apply H.
Qed.

Lemma elems_push_all {A} k (l : list A) m : msorted m -> Permutation (elems (push_all k l m)) (elems m ++ l).
Proof.
  unfold push_all. revert m. induction l as [|a l IH]; simpl; intros m S; [rewrite app_nil_r; auto|].
  rewrite IH by (apply mpush_sorted; auto). rewrite (elems_mpush k a m S). simpl.
  apply Permutation_middle.
Qed.

(* growth of the key sets through operations that extract nothing *)
Record ext_step (g g' : gm) : Prop := {
  es_val : forall k, In k (mkeys (g_val g)) -> In k (mkeys (g_val g'));
  es_new : forall k, In k (mkeys (g_new_val g')) <->
             In k (mkeys (g_new_val g)) \/ (In k (mkeys (g_val g')) /\ ~ In k (mkeys (g_val g)));
  es_unm : forall k, In k (elems (g_unm g')) <->
             In k (elems (g_unm g)) \/ (In k (mkeys (g_val g')) /\ ~ In k (mkeys (g_val g)))
}.

Lemma ext_step_same g g' : g_val g' = g_val g -> g_new_val g' = g_new_val g -> g_unm g' = g_unm g -> ext_step g g'.
Proof. intros E1 E2 E3. constructor; rewrite ?E1, ?E2, ?E3; intros; tauto. Qed.

Lemma ext_step_refl g : ext_step g g.
Proof. apply ext_step_same; reflexivity. Qed.

Lemma ext_step_trans g1 g2 g3 : ext_step g1 g2 -> ext_step g2 g3 -> ext_step g1 g3.
Proof.
  intros [A1 A2 A3] [B1 B2 B3]. constructor.
  - auto.
  - intros k. rewrite B2, A2. destruct (in_dec Z.eq_dec k (mkeys (g_val g2))) as [H|H].
    + specialize (B1 k H). tauto.
    + specialize (A1 k). tauto.
  - intros k. rewrite B3, A3. destruct (in_dec Z.eq_dec k (mkeys (g_val g2))) as [H|H].
    + specialize (B1 k H). tauto.
    + specialize (A1 k). tauto.
Qed.

Lemma gm_update_ext rk v g : gm_inv g -> ext_step g (fst (gm_update rk v g)).
Proof.
  intros I. unfold gm_update. destruct (mmem rk (g_val g)) eqn:E; [|apply ext_step_refl].
  apply mmem_true in E. constructor; gsimp.
  - intros k Hk. apply mkeys_mput; auto.
  - intros k. rewrite mkeys_mput_present by auto. destruct (mmem rk (g_new_val g)) eqn:E2; [|tauto].
    apply mmem_true in E2. rewrite mkeys_mput_present by auto. tauto.
  - intros k. rewrite mkeys_mput_present by auto. tauto.
Qed.

Lemma gm_set_ext c k v g : gm_inv g -> ext_step g (fst (gm_set c k v g)).
Proof.
  intros I. destruct (gm_set_cases c k v g) as [[H E]|[(H & Hm & E)|(H & Hm & E)]]; rewrite E.
  - apply ext_step_refl.
  - apply gm_update_ext; auto.
  - rewrite gm_add_ok by auto. apply mmem_false in Hm. apply mget_None_notin in Hm.
    pose proof I as I'. destruct I'. constructor; gsimp.
    + intros x Hx. apply mkeys_mput; auto.
    + intros x. rewrite !mkeys_mput. split.
      * intros [->|Hx]; auto.
      * intros [Hx|[[->|Hx] Hn]]; auto; contradiction.
    + intros x. rewrite mkeys_mput.
      assert (Hp: In x (elems (mpush k (raw c k) (g_unm g))) <-> In x (raw c k :: elems (g_unm g))).
      { split; apply Permutation_in; [|symmetry]; apply elems_mpush; auto. }
      rewrite Hp. simpl. split.
      * intros [<-|Hx]; auto.
      * intros [Hx|[[->|Hx] Hn]]; auto; contradiction.
Qed.

Lemma gm_update_all_ext l g : gm_inv g -> ext_step g (fst (gm_update_all l g)).
Proof.
  intros I. pose proof (gm_update_all_frame l g) as F. cbv zeta in F.
  destruct F as (_&_&_&_&_&_&_&_&_&U&Hn&Hv). constructor.
  - intros k Hk. apply Hv; auto.
  - intros k. rewrite Hn, Hv. tauto.
  - intros k. rewrite U, Hv. tauto.
Qed.

Section Hist.
Variable bp : Z -> Z -> Z -> Z -> Z.

Lemma stereo_feature_ext k im1 im2 pose cam id meas g :
  gm_inv g -> ext_step g (fst (stereo_feature bp k im1 im2 pose cam id meas g)).
Proof.
  intros I. unfold stereo_feature. destruct (mget id im1) as [m1|]; [|apply ext_step_refl].
  remember (stereo_first k im2 id m1 g) as r1 eqn:Er1.
  assert (I1: gm_inv (fst r1) /\ ext_step g (fst r1)).
  { subst r1. unfold stereo_first.
    destruct (match im2 with Some f => negb (mmem id f) | None => true end); [|split; [auto|apply ext_step_refl]].
    destruct (sym_keys [(SymX, k - 1); (SymS, id)]); cbn [fst]; try (split; [auto|apply ext_step_refl]).
    split; [|apply ext_step_same; reflexivity].
    apply with_ids_inv; [apply gm_add_factor_inv; auto| |]; gsimp; apply mpush_sorted;
      apply (gm_add_factor_inv k (mkFactor FStereo [] 0) g) in I; destruct I; auto. }
  destruct I1 as (I1 & X1). destruct r1 as [g1 [u| |]]; cbn [fst] in *; auto.
  destruct (g_calib g1); auto.
  pose proof (gm_set_ext SymS id (bp pose cam z meas) g1 I1) as X2.
  assert (X: ext_step g (fst (gm_set SymS id (bp pose cam z meas) g1))) by (eapply ext_step_trans; eauto).
  destruct (gm_set SymS id (bp pose cam z meas) g1) as [g2 [u2| |]]; cbn [fst] in *; auto.
  destruct (sym_keys [(SymX, k); (SymS, id)]); cbn [fst]; auto.
  eapply ext_step_trans; [exact X|]. apply ext_step_same; reflexivity.
Qed.

Lemma stereo_loop_ext k im1 im2 pose cam fi g :
  gm_inv g -> ext_step g (fst (stereo_features_loop bp k im1 im2 pose cam fi g)).
Proof.
  revert g. induction fi as [|[id meas] fi IH]; simpl; intros g I; [apply ext_step_refl|].
  pose proof (stereo_feature_inv bp k im1 im2 pose cam id meas g I) as I1.
  pose proof (stereo_feature_ext k im1 im2 pose cam id meas g I) as X1.
  destruct (stereo_feature bp k im1 im2 pose cam id meas g) as [g1 [u| |]]; cbn [fst] in *; auto.
  eapply ext_step_trans; eauto.
Qed.

Lemma gm_create_stereo_ext k f g : gm_inv g -> ext_step g (fst (gm_create_stereo bp k f g)).
Proof.
  intros I. unfold gm_create_stereo. destruct (mmem k (g_feat g)); [apply ext_step_refl|].
  set (g1 := with_feat _ g). set (g2 := with_fac _ _ g1).
  assert (X2: ext_step g g2) by (apply ext_step_same; reflexivity).
  assert (I2: gm_inv g2).
  { subst g2 g1. pose proof I as I'. destruct I'. apply with_fac_inv; gsimp; auto using mtouch_sorted.
    apply with_feat_inv; auto using msorted_mput. }
  destruct (rev (g_feat g2)) as [|[k1 fi] [|[k2 im1] rest]]; try exact X2.
  destruct (gm_has SymX k g2) as [[|]| |]; try exact X2.
  destruct (gm_get SymX k g2); try exact X2.
  destruct (g_cam g2); try exact X2.
  eapply ext_step_trans; [exact X2|]. eapply ext_step_trans; [|apply stereo_loop_ext].
  - apply ext_step_same; reflexivity.
  - pose proof I2 as I3. destruct I3. apply with_ids_inv; auto using mtouch_sorted.
Qed.

(* calls other than optimise / marginalise *)
Definition plain (op : gmop) : bool :=
  match op with OOptimise _ _ | OMarginalise _ _ => false | _ => true end.

Lemma plain_ext s op : igm_inv s -> plain op = true -> ext_step (i_gm s) (i_gm (fst (gm_step bp s op))).
Proof.
  intros I Hp. pose proof (inv_gm _ I) as Ig.
  assert (Same: forall g', g_val g' = g_val (i_gm s) -> g_new_val g' = g_new_val (i_gm s) ->
     g_unm g' = g_unm (i_gm s) -> ext_step (i_gm s) g') by (intros; apply ext_step_same; auto).
  destruct op; simpl gm_step; try discriminate; try (apply Same; reflexivity);
    try (unfold lift; gsimp; apply gm_set_ext; auto; fail).
  - unfold lift, gm_set_navstate. gsimp.
    pose proof (gm_set_inv SymX k p _ Ig) as I0. pose proof (gm_set_ext SymX k p _ Ig) as X0.
    destruct (gm_set SymX k p (i_gm s)) as [g1 [u| |]]; cbn [fst] in *; auto.
    eapply ext_step_trans; [exact X0|]. apply gm_set_ext; auto.
  - unfold lift, gm_increment. destruct (sget name (g_keys (i_gm s))) as [[? ?]|]; apply Same; reflexivity.
  - unfold lift, gm_set_timestamp. destruct (0 <=? k); apply Same; reflexivity.
  - destruct kind; try (apply Same; reflexivity); apply Same; apply gm_create_frame.
  - unfold lift. gsimp. apply gm_create_stereo_ext; auto.
  - unfold lift. gsimp. apply gm_update_all_ext; auto.
Qed.

(* ---------------- pending landmark ids ---------------- *)
(* documented usage: frames are maps; an id whose track starts has never had a landmark before; the
   platform reads past-the-end keys harmlessly *)
Definition fresh_op (s : igm) (op : gmop) : Prop :=
  match op with
  | OStereo k f => msorted f /\ forall t, In t (stereo_done k f (i_gm s)) -> t_first t = true ->
                     mget (raw SymS (t_id t)) (g_val (i_gm s)) = None
  | OOptimise o _ => end_harmless (o_end o)
  | _ => True
  end.

Fixpoint fresh (s : igm) (ops : list gmop) : Prop :=
  match ops with [] => True | op :: ops' => fresh_op s op /\ fresh (fst (gm_step bp s op)) ops' end.

Definition feats_ok (g : gm) : Prop := forall e, In e (g_feat g) -> msorted (snd e).

Lemma take_while_In {A} (p : A -> bool) l x : In x (take_while p l) -> In x l /\ p x = true.
Proof.
  induction l as [|a l IH]; simpl; [tauto|]. destruct (p a) eqn:E; [|intros []].
  intros [<-|H]; [auto|]. apply IH in H. tauto.
Qed.

Lemma tracks_In fi im1 im2 t : In t (tracks_of fi im1 im2) -> In (t_id t) (mkeys fi).
Proof.
  unfold tracks_of. rewrite in_flat_map. intros ([id meas] & H & Ht). simpl in Ht.
  destruct (mget id im1); [|inversion Ht]. destruct Ht as [<-|[]]. simpl. apply in_map_iff. exists (id, meas); auto.
Qed.

Lemma tracks_nodup fi im1 im2 : msorted fi -> NoDup (map t_id (tracks_of fi im1 im2)).
Proof.
  induction fi as [|[id meas] fi IH]; simpl; intros S; [constructor|]. destruct S as [L S].
  destruct (mget id im1); simpl; [|auto]. constructor; [|auto].
  intros H. apply in_map_iff in H. destruct H as (t & E & Ht). apply tracks_In in Ht. rewrite E in Ht.
  specialize (L _ Ht). lia.
Qed.

Lemma NoDup_take_while {A B} (h : A -> B) p l : NoDup (map h l) -> NoDup (map h (take_while p l)).
Proof.
  induction l as [|a l IH]; simpl; intros H; [constructor|]. inversion H; subst. destruct (p a); simpl; [|constructor].
  constructor; auto. intros Hin. apply H2. apply in_map_iff in Hin. destruct Hin as (x & E & Hx).
  apply take_while_In in Hx. rewrite <- E. apply in_map. tauto.
Qed.

Lemma NoDup_map_filter {A B} (h : A -> B) p l : NoDup (map h l) -> NoDup (map h (filter p l)).
Proof.
  induction l as [|a l IH]; simpl; intros H; [constructor|]. inversion H; subst. destruct (p a); simpl; auto.
  constructor; auto. intros Hin. apply H2. apply in_map_iff in Hin. destruct Hin as (x & E & Hx).
  apply filter_In in Hx. rewrite <- E. apply in_map. tauto.
Qed.

Lemma In_mput_entry {A} k (a : A) m e : In e (mput k a m) -> e = (k, a) \/ In e m.
Proof.
  induction m as [|[k' a'] m IH]; simpl; [intuition|].
  destruct (k =? k'); simpl; [intuition|]. destruct (k <? k'); simpl; [intuition|]. intros [<-|H]; [auto|].
  apply IH in H. intuition.
Qed.

Lemma stereo_done_nodup k f g : feats_ok g -> msorted f -> NoDup (map t_id (stereo_done k f g)).
Proof.
  intros HF Sf. unfold stereo_done. destruct (mmem k (g_feat g)); [constructor|].
  destruct (rev (mput k f (g_feat g))) as [|[k1 fi] [|[k2 im1] rest]] eqn:E; try constructor.
  destruct (idx_ok k); [|constructor]. destruct (mget _ (g_val g)); [|constructor]. destruct (g_cam g); [|constructor].
  apply NoDup_take_while, tracks_nodup.
  assert (Hin: In (k1, fi) (mput k f (g_feat g))) by (apply in_rev; rewrite E; left; reflexivity).
  apply In_mput_entry in Hin. destruct Hin as [Hin|Hin]; [inversion Hin; subst; auto|apply (HF _ Hin)].
Qed.

Lemma stereo_done_ok k f g t : In t (stereo_done k f g) -> idx_ok (t_id t) = true.
Proof.
  unfold stereo_done. destruct (mmem k (g_feat g)); [intros []|].
  destruct (rev (mput k f (g_feat g))) as [|[k1 fi] [|[k2 im1] rest]] eqn:E; try (intros []).
  destruct (idx_ok k); [|intros []]. destruct (mget _ (g_val g)); [|intros []]. destruct (g_cam g); [|intros []].
  intros H. apply take_while_In in H. destruct H as [_ H]. unfold track_ok in H. apply andb_prop in H. tauto.
Qed.

(* ids registered as new by a call: representable, without a landmark before and with one afterwards *)
Lemma stereo_firsts_new k f g :
  gm_inv g ->
  (forall t, In t (stereo_done k f g) -> t_first t = true -> mget (raw SymS (t_id t)) (g_val g) = None) ->
  snd (gm_create_stereo bp k f g) <> UB ->
  forall id, In id (map t_id (filter t_first (stereo_done k f g))) ->
  idx_ok id = true /\ ~ In (raw SymS id) (mkeys (g_val g)) /\
  In (raw SymS id) (mkeys (g_val (fst (gm_create_stereo bp k f g)))).
Proof.
  intros I Hfresh NU.
  destruct (gm_create_stereo_exact bp k f g I NU) as (Ev & _).
  set (g' := fst (gm_create_stereo bp k f g)) in *. set (ts := stereo_done k f g) in *.
 intros id Hid. apply in_map_iff in Hid. destruct Hid as (t & <- & Ht). apply filter_In in Ht. destruct Ht as [Ht Hf].
    split; [apply (stereo_done_ok k f g); auto|]. split.
    - apply mget_None_notin. apply Hfresh; auto.
    - rewrite Ev. unfold stereo_writes. fold ts.
      destruct (mget (raw SymX k) (g_val g)) as [p|] eqn:Hp1.
      + destruct (g_cam g) as [c|] eqn:Hc.
        * destruct (g_calib g) as [kal|] eqn:Hk.
          -- destruct (mget (raw SymS (t_id t)) (apply_writes (map (fun t0 => (raw SymS (t_id t0), bp p c kal (t_meas t0))) ts) (g_val g))) eqn:Eg;
               [eapply mget_key_In; eauto|]. exfalso. rewrite mget_apply_writes in Eg.
             destruct (last_write (raw SymS (t_id t)) (map (fun t0 => (raw SymS (t_id t0), bp p c kal (t_meas t0))) ts)) eqn:El; [discriminate|].
             apply last_write_None in El. apply El. rewrite map_map. simpl. apply (in_map (fun x => raw SymS (t_id x))). exact Ht.
          -- exfalso. (* no calibration: nothing done unless UB *)
             revert NU Ht. unfold ts, stereo_done. unfold gm_create_stereo.
             destruct (mmem k (g_feat g)); [intros _ []|].
             set (g2 := with_fac _ _ _). assert (Hfeat: g_feat g2 = mput k f (g_feat g)) by reflexivity.
             rewrite <- Hfeat. destruct (rev (g_feat g2)) as [|[k1 fi] [|[k2 im1] rest]]; try (intros _ []).
             unfold gm_has, gm_get, sym_key. destruct (idx_ok k) eqn:Hik; [|intros _ []].
             unfold mmem. change (g_val g2) with (g_val g). rewrite Hp1. change (g_cam g2) with (g_cam g). rewrite Hc.
             set (g3 := with_ids _ _ g2). intros NU Ht.
             assert (I3: gm_inv g3).
             { subst g3 g2. pose proof I as I3. destruct I3. apply with_ids_inv; gsimp; auto using mtouch_sorted.
               apply with_fac_inv; gsimp; auto using mtouch_sorted. apply with_feat_inv; auto using msorted_mput. }
             destruct (stereo_loop_no_calib_exact bp k im1 (match rest with [] => None | (_, f2) :: _ => Some f2 end) p c fi g3 I3 Hik Hk) as [U|(r & _ & T & _)].
             ++ contradiction.
             ++ rewrite T in Ht. inversion Ht.
        * exfalso. unfold ts, stereo_done in Ht. rewrite Hc in Ht. destruct (mmem k (g_feat g)); [inversion Ht|].
          destruct (rev (mput k f (g_feat g))) as [|[k1 fi] [|[k2 im1] rest]]; try inversion Ht.
          destruct (idx_ok k); [|inversion Ht]. destruct (mget _ (g_val g)); inversion Ht.
      + exfalso. unfold ts, stereo_done in Ht. rewrite Hp1 in Ht. destruct (mmem k (g_feat g)); [inversion Ht|].
        destruct (rev (mput k f (g_feat g))) as [|[k1 fi] [|[k2 im1] rest]]; try inversion Ht.
        destruct (idx_ok k); inversion Ht.
Qed.

Lemma ids_ok_stereo k f g :
  gm_inv g -> ids_ok g -> feats_ok g -> msorted f ->
  (forall t, In t (stereo_done k f g) -> t_first t = true -> mget (raw SymS (t_id t)) (g_val g) = None) ->
  snd (gm_create_stereo bp k f g) <> UB ->
  ids_ok (fst (gm_create_stereo bp k f g)).
Proof.
  intros I [ND Hids] HF Sf Hfresh NU.
  destruct (gm_create_stereo_exact bp k f g I NU) as (Ev & _ & _ & _ & En & _).
  pose proof (gm_create_stereo_ext k f g I) as X.
  pose proof (gm_create_stereo_inv bp k f g I) as I'.
  set (g' := fst (gm_create_stereo bp k f g)) in *. set (ts := stereo_done k f g) in *.
  assert (Hp: Permutation (elems (g_new_ids g')) (elems (g_new_ids g) ++ map t_id (filter t_first ts))).
  { rewrite <- (elems_push_all k (map t_id (filter t_first ts)) (g_new_ids g)) by (destruct I; auto).
    rewrite (elems_ext (g_new_ids g') (push_all k (map t_id (filter t_first ts)) (g_new_ids g))); auto.
    - destruct I'; auto.
    - apply push_all_sorted. destruct I; auto. }
  assert (Hsn: forall id, In id (elems (g_new_ids g)) -> In (raw SymS id) (mkeys (g_val g))).
  { intros id Hid. destruct (Hids id Hid) as [_ H]. apply mmem_true in H. apply mmem_mget in H. destruct H as [v H].
    apply (inv_sub _ I) in H. eapply mget_key_In; eauto. }
  pose proof (stereo_firsts_new k f g I Hfresh NU) as Hfr. fold g' ts in Hfr.
  split.
  - apply (Permutation_NoDup (Permutation_sym Hp)). apply NoDup_app_intro; auto.
    + apply NoDup_map_filter. apply stereo_done_nodup; auto.
    + intros id H1 H2. apply Hfr in H2. apply Hsn in H1. tauto.
  - intros id Hid. apply (Permutation_in _ Hp) in Hid. apply in_app_or in Hid. destruct Hid as [Hid|Hid].
    + destruct (Hids id Hid) as [A B]. split; [auto|]. apply (es_new _ _ X). auto.
    + destruct (Hfr id Hid) as (A & B & C). split; [auto|]. apply (es_new _ _ X). auto.
Qed.

(* other plain calls: new ids untouched *)
Lemma plain_ids s op :
  igm_inv s -> plain op = true -> (forall k f, op <> OStereo k f) ->
  g_new_ids (i_gm (fst (gm_step bp s op))) = g_new_ids (i_gm s) /\
  g_feat (i_gm (fst (gm_step bp s op))) = g_feat (i_gm s).
Proof.
  intros I Hp Hs. pose proof (inv_gm _ I) as Ig.
  assert (Set_: forall c k v, g_new_ids (fst (gm_set c k v (i_gm s))) = g_new_ids (i_gm s) /\ g_feat (fst (gm_set c k v (i_gm s))) = g_feat (i_gm s)).
  { intros c k v. pose proof (gm_set_frame c k v (i_gm s) Ig) as F. cbv zeta in F. tauto. }
  destruct op; simpl gm_step; try discriminate; try (split; reflexivity); try (unfold lift; gsimp; apply Set_).
  - unfold lift, gm_set_navstate. gsimp. pose proof (gm_set_inv SymX k p _ Ig) as I0. specialize (Set_ SymX k p).
    destruct (gm_set SymX k p (i_gm s)) as [g1 [u| |]]; cbn [fst] in *; auto.
    pose proof (gm_set_frame SymV k v g1 I0) as F. cbv zeta in F. destruct F as (_&_&_&_&F1&_&F2&_). 
    destruct Set_. split; congruence.
  - unfold lift, gm_increment. destruct (sget name (g_keys (i_gm s))) as [[? ?]|]; split; reflexivity.
  - unfold lift, gm_set_timestamp. destruct (0 <=? k); split; reflexivity.
  - destruct kind; try (split; reflexivity); split; apply gm_create_frame.
  - exfalso. eapply Hs; reflexivity.
  - unfold lift. gsimp. pose proof (gm_update_all_frame l (i_gm s)) as F. cbv zeta in F. tauto.
Qed.

Lemma extract_ids_ok e m g :
  gm_inv g -> ids_ok g -> e < raw SymB 0 -> ids_ok (fst (gm_extract_values (Some e) m g)).
Proof.
  intros I Hok He. destruct (idx_ok m) eqn:Hm.
  - destruct (extract_values_exact e m g I Hok He Hm) as (g' & vs & E & Svs & G1 & G2 & G3). rewrite E. cbn [fst].
    destruct Hok as [ND Hids].
    assert (Hp: Permutation (elems (g_new_ids g)) (elems (filter (fun e => fst e <=? m) (g_new_ids g)) ++ elems (g_new_ids g'))).
    { rewrite G3, filter_gt_negb. apply elems_filter_perm. }
    pose proof (Permutation_NoDup Hp ND) as ND2. split.
    + eapply NoDup_app_r; eauto.
    + intros id Hid. assert (Hid2: In id (elems (g_new_ids g))).
      { apply (Permutation_in _ (Permutation_sym Hp)). apply in_or_app; auto. }
      destruct (Hids id Hid2) as [A B]. split; [auto|].
      apply mmem_true in B. apply mmem_mget in B. destruct B as [v B]. enough (HH : mget (raw SymS id) (g_new_val g') = Some v) by (eapply mget_key_In; exact HH).
      rewrite G2 by auto. destruct (handed m g SymS id) eqn:Eh; [|exact B]. exfalso. apply handed_lm in Eh.
      eapply NoDup_app_disj; eauto.
  - unfold gm_extract_values, add_values4, add_values_sym, sym_key. rewrite Hm. simpl. exact Hok.
Qed.

Lemma igm_extract_ids_ok o m g :
  gm_inv g -> ids_ok g -> end_harmless (o_end o) -> ids_ok (fst (igm_extract o m g)).
Proof.
  intros I Hok (e & Ee & He). unfold igm_extract. rewrite Ee. destruct (o_values_first o).
  - pose proof (extract_ids_ok e m g I Hok He) as H.
    destruct (gm_extract_values (Some e) m g) as [g1 [v| |]]; cbn [fst] in *; auto.
    pose proof (gm_extract_factors_frame m g1) as F. cbv zeta in F. destruct (gm_extract_factors m g1) as [g2 f].
    cbn [fst] in *. destruct F as (_&F1&_&_&_&_&_&_&F2&_). unfold ids_ok in *. rewrite F1, F2. exact H.
  - pose proof (gm_extract_factors_frame m g) as F. cbv zeta in F.
    pose proof (gm_extract_factors_inv m g I) as I1. destruct (gm_extract_factors m g) as [g1 f].
    cbn [fst] in *. destruct F as (_&F1&_&_&_&_&_&_&F2&_).
    assert (Hok1: ids_ok g1) by (unfold ids_ok in *; rewrite F1, F2; exact Hok).
    pose proof (extract_ids_ok e m g1 I1 Hok1 He) as H.
    destruct (gm_extract_values (Some e) m g1) as [g2 [v| |]]; cbn [fst] in *; auto.
Qed.

Lemma igm_extract_feat o m g : g_feat (fst (igm_extract o m g)) = g_feat g.
Proof.
  unfold igm_extract. destruct (o_values_first o).
  - pose proof (gm_extract_values_frame (o_end o) m g) as F. cbv zeta in F.
    destruct (gm_extract_values (o_end o) m g) as [g1 [v| |]]; cbn [fst] in *; try tauto.
    pose proof (gm_extract_factors_frame m g1) as F2. cbv zeta in F2. destruct (gm_extract_factors m g1) as [g2 f].
    cbn [fst] in *. destruct F as (_&_&_&_&_&_&F&_), F2 as (_&_&_&_&_&_&F2&_). congruence.
  - pose proof (gm_extract_factors_frame m g) as F. cbv zeta in F. destruct (gm_extract_factors m g) as [g1 f].
    pose proof (gm_extract_values_frame (o_end o) m g1) as F2. cbv zeta in F2.
    destruct F as (_&_&_&_&_&_&F&_), F2 as (_&_&_&_&_&_&F2&_). cbn [fst] in *.
    destruct (gm_extract_values (o_end o) m g1) as [g2 [v| |]]; cbn [fst] in *; congruence.
Qed.

Lemma optimise_ids_feat o m s :
  igm_inv s ->
  let g1 := fst (igm_extract o m (i_gm s)) in
  let g' := i_gm (fst (igm_optimise o m s)) in
  g_new_ids g' = g_new_ids g1 /\ g_feat g' = g_feat (i_gm s) /\
  (forall k, In k (mkeys (g_new_val g')) <-> In k (mkeys (g_new_val g1))) /\
  (forall k, In k (mkeys (g_val g')) <-> In k (mkeys (g_val (i_gm s)))).
Proof.
  intros I. cbv zeta.
  pose proof (igm_extract_feat o m (i_gm s)) as Hf.
  pose proof (igm_extract_frame o m (i_gm s) (inv_gm _ I)) as Fr. cbv zeta in Fr.
  destruct (igm_optimise_split o m s I) as [(g1 & E & R)|[(g1 & E & R)|[(g1 & fs & vs & E & A & R)|(g1 & fs & vs & E & A & R)]]];
    try (rewrite R, E in *; cbn [fst] in *; gsimp; conj; auto; intros; try tauto;
         destruct Fr as (_ & Fv & _); rewrite Fv; tauto).
  cbv zeta in R. destruct R as (_ & I3 & R). rewrite R. rewrite E in *. cbn [fst] in *.
  destruct Fr as (_ & Fv & _).
  pose proof (gm_update_all_frame (estimate o (i_vars s ++ mkeys vs)) g1) as F. cbv zeta in F.
  destruct F as (_&_&_&_&F1&_&F2&_&_&_&F3&F4).
  set (g2 := fst (gm_update_all (estimate o (i_vars s ++ mkeys vs)) g1)) in *.
  set (s3 := mkIgm g2 (i_vars s ++ mkeys vs) (i_facs s ++ fs) m (i_marg_on s) (i_marg_key s) (i_window s)) in *.
  assert (H3: g_new_ids (i_gm s3) = g_new_ids g1 /\ g_feat (i_gm s3) = g_feat (i_gm s) /\
     (forall k, In k (mkeys (g_new_val (i_gm s3))) <-> In k (mkeys (g_new_val g1))) /\
     (forall k, In k (mkeys (g_val (i_gm s3))) <-> In k (mkeys (g_val (i_gm s))))).
  { subst s3. gsimp. conj; auto; [congruence|]. intros k. rewrite <- Fv. apply F4. }
  destruct (i_marg_on s && (i_marg_key s <=? m - i_window s)); cbn [fst]; [|exact H3].
  destruct (igm_marginalise_frame o (m - i_window s) s3) as (M1&M2&_&_&_&_&M3&_&M4&_).
  rewrite M1, M2, M3, M4. exact H3.
Qed.

Lemma fresh_step s op :
  igm_inv s -> ids_ok (i_gm s) -> feats_ok (i_gm s) -> fresh_op s op -> snd (gm_step bp s op) <> UB ->
  ids_ok (i_gm (fst (gm_step bp s op))) /\ feats_ok (i_gm (fst (gm_step bp s op))).
Proof.
  intros I Hok HF Hfr NU. pose proof (inv_gm _ I) as Ig.
  assert (Plain: plain op = true -> (forall k f, op <> OStereo k f) ->
     ids_ok (i_gm (fst (gm_step bp s op))) /\ feats_ok (i_gm (fst (gm_step bp s op)))).
  { intros Hp Hs. destruct (plain_ids s op I Hp Hs) as [E1 E2]. pose proof (plain_ext s op I Hp) as X.
    split; [|unfold feats_ok; rewrite E2; exact HF]. destruct Hok as [ND Hids]. unfold ids_ok. rewrite E1.
    split; [exact ND|]. intros id Hid. destruct (Hids id Hid) as [A B]. split; [auto|]. apply (es_new _ _ X). auto. }
  destruct op; try (apply Plain; [reflexivity|intros; discriminate]).
  - simpl gm_step in *. unfold lift in *. gsimp. destruct Hfr as [Sf Hfr].
    assert (NU': snd (gm_create_stereo bp k features (i_gm s)) <> UB).
    { destruct (snd (gm_create_stereo bp k features (i_gm s))); simpl in NU; congruence. }
    split; [apply ids_ok_stereo; auto|].
    destruct (gm_create_stereo_exact bp k features (i_gm s) Ig NU') as (_&_&_&_&_&_&_&_&_&E).
    unfold feats_ok. rewrite E. destruct (mmem k (g_feat (i_gm s))); [exact HF|].
    intros e He. apply In_mput_entry in He. destruct He as [->|He]; [exact Sf|apply HF; exact He].
  - simpl gm_step in *. pose proof (igm_extract_ids_ok o m (i_gm s) Ig Hok Hfr) as [ND Hids].
    destruct (optimise_ids_feat o m s I) as (E1 & E2 & E3 & _). unfold obs in *. split.
    + unfold ids_ok. rewrite E1. split; [exact ND|]. intros id Hid. destruct (Hids id Hid) as [A B].
      split; [auto|]. apply E3. auto.
    + unfold feats_ok. rewrite E2. exact HF.
  - simpl gm_step in *. destruct (igm_marginalise_frame o k s) as (_&M2&_&_&_&_&M3&_&M4&_).
    destruct (igm_marginalise o k s) as [s' [ks| |]]; cbn [fst] in *; unfold ids_ok, feats_ok in *; rewrite M2, M3, M4; auto.
Qed.

Lemma fresh_run ops s :
  igm_inv s -> ids_ok (i_gm s) -> feats_ok (i_gm s) -> fresh s ops -> no_ub (gm_trace bp s ops) ->
  ids_ok (i_gm (gm_run bp s ops)) /\ feats_ok (i_gm (gm_run bp s ops)).
Proof.
  revert s. induction ops as [|op ops IH]; simpl; intros s I Hok HF Hfr NU; [auto|].
  destruct Hfr as [Hfr1 Hfr]. assert (NU1: snd (gm_step bp s op) <> UB) by (apply NU; left; reflexivity).
  destruct (fresh_step s op I Hok HF Hfr1 NU1). apply IH; auto using gm_step_inv.
  intros o Ho. apply NU. right; exact Ho.
Qed.

Lemma ids_ok_init : ids_ok (i_gm igm_init) /\ feats_ok (i_gm igm_init).
Proof. split; [split; [constructor|intros id []]|intros e []]. Qed.

(* C05 over histories: what an optimisation hands over and what remains *)
Lemma optimise_values_exact ops o m :
  fresh igm_init ops -> no_ub (gm_trace bp igm_init ops) -> end_harmless (o_end o) -> idx_ok m = true ->
  let g := i_gm (gm_run bp igm_init ops) in
  exists g' fs vs, igm_extract o m g = (g', Ok (fs, vs)) /\
    (forall c n, idx_ok n = true -> mget (raw c n) vs = if handed m g c n then mget (raw c n) (g_new_val g) else None) /\
    (forall c n, idx_ok n = true -> mget (raw c n) (g_new_val g') = if handed m g c n then None else mget (raw c n) (g_new_val g)).
Proof.
  intros Hfr NU (e & Ee & He) Hm g.
  assert (I: igm_inv (gm_run bp igm_init ops)) by (apply gm_run_inv, igm_init_inv).
  destruct (fresh_run ops igm_init igm_init_inv (proj1 ids_ok_init) (proj2 ids_ok_init) Hfr NU) as [Hok _].
  fold g in Hok. pose proof (inv_gm _ I) as Ig. fold g in Ig.
  unfold igm_extract. rewrite Ee. destruct (o_values_first o).
  - destruct (extract_values_exact e m g Ig Hok He Hm) as (g' & vs & E & _ & G1 & G2 & _). rewrite E.
    pose proof (gm_extract_factors_frame m g') as F. cbv zeta in F. destruct (gm_extract_factors m g') as [g2 f].
    cbn [fst] in F. destruct F as (_&F&_). exists g2, f, vs. split; [reflexivity|]. rewrite F. auto.
  - pose proof (gm_extract_factors_frame m g) as F. cbv zeta in F.
    pose proof (gm_extract_factors_inv m g Ig) as I1. destruct (gm_extract_factors m g) as [g1 f].
    cbn [fst] in *. destruct F as (_&F1&_&_&_&_&_&_&F2&_).
    assert (Hok1: ids_ok g1) by (unfold ids_ok in *; rewrite F1, F2; exact Hok).
    destruct (extract_values_exact e m g1 I1 Hok1 He Hm) as (g' & vs & E & _ & G1 & G2 & _). rewrite E.
    exists g', f, vs. split; [reflexivity|].
    assert (Hh: forall c n, handed m g1 c n = handed m g c n) by (intros c n; unfold handed; rewrite F2; reflexivity).
    split; intros c n Hn; rewrite <- Hh, <- F1; auto.
Qed.

(* ---------------- marginalisation ---------------- *)
Definition margs (t : list obs) : list Z :=
  flat_map (fun o => match o with Ok (_, _, ks) => ks | _ => [] end) t.

(* no optimisation or marginalisation of the history failed *)
Fixpoint solver_ok (s : igm) (ops : list gmop) : Prop :=
  match ops with
  | [] => True
  | op :: ops' => (plain op = false -> is_ok (snd (gm_step bp s op)) = true) /\ solver_ok (fst (gm_step bp s op)) ops'
  end.

Record marg_inv (s : igm) (M : list Z) : Prop := {
  mi_nodup : NoDup M;
  mi_val : forall k, In k M -> In k (mkeys (g_val (i_gm s)));
  mi_cover : forall k, In k (mkeys (g_val (i_gm s))) -> In k M \/ In k (elems (g_unm (i_gm s)));
  mi_disj : forall k, In k M -> ~ In k (elems (g_unm (i_gm s)));
  mi_vars : forall k, In k M -> ~ In k (i_vars s);
  mi_new : forall k, In k M -> ~ In k (mkeys (g_new_val (i_gm s)))
}.

Lemma lift_vars s g r : i_vars (fst (lift s (g, r))) = i_vars s.
Proof. reflexivity. Qed.

Lemma plain_vars s op : plain op = true -> i_vars (fst (gm_step bp s op)) = i_vars s.
Proof. intros H. destruct op; try discriminate; try reflexivity. simpl. destruct kind; reflexivity. Qed.

Lemma plain_obs s op fs vs ks : plain op = true -> snd (gm_step bp s op) = Ok (fs, vs, ks) -> ks = [].
Proof.
  assert (Hobs: forall A (r : res A), obs_of r = Ok (fs, vs, ks) -> ks = []).
  { intros A r. destruct r; simpl; intros H; inversion H; reflexivity. }
  intros H E. destruct op; try discriminate H; simpl gm_step in E; unfold lift in E; cbn [snd] in E;
    try (eapply Hobs; exact E); try (inversion E; reflexivity).
  destruct kind; cbn [snd] in E; try (eapply Hobs; exact E). discriminate.
Qed.

Lemma plain_marg s op M : igm_inv s -> plain op = true -> marg_inv s M -> marg_inv (fst (gm_step bp s op)) M.
Proof.
  intros I Hp [A B C D E F]. pose proof (plain_ext s op I Hp) as X.
  constructor; auto.
  - intros k Hk. apply (es_val _ _ X). auto.
  - intros k Hk. destruct (in_dec Z.eq_dec k (mkeys (g_val (i_gm s)))) as [Hi|Hi].
    + destruct (C k Hi); [auto|]. right. apply (es_unm _ _ X). auto.
    + right. apply (es_unm _ _ X). auto.
  - intros k Hk Hu. apply (es_unm _ _ X) in Hu. destruct Hu as [Hu|[_ Hu]]; [apply (D k); auto|]. apply Hu. auto.
  - intros k Hk. rewrite plain_vars by auto. auto.
  - intros k Hk Hu. apply (es_new _ _ X) in Hu. destruct Hu as [Hu|[_ Hu]]; [apply (F k); auto|]. apply Hu. auto.
Qed.

(* marginalising up to n *)
Lemma marginalise_ok o n s M s' ks :
  igm_inv s -> marg_inv s M -> igm_marginalise o n s = (s', Ok ks) ->
  ks = elems (filter (fun e => fst e <=? n) (g_unm (i_gm s))) /\
  g_unm (i_gm s') = filter (fun e => n <? fst e) (g_unm (i_gm s)) /\
  marg_inv s' (M ++ ks) /\ n <= i_opt s.
Proof.
  intros I [A B C D E F] H. unfold igm_marginalise in H. destruct (Z.ltb_spec (i_opt s) n) as [Hn|Hn]; [discriminate|].
  unfold gm_extract_unm in H.
  assert (Su: msorted (g_unm (i_gm s))) by (destruct (inv_gm _ I); auto).
  rewrite take_upto_spec in H by auto.
  set (out := elems (filter (fun e => fst e <=? n) (g_unm (i_gm s)))) in *.
  destruct (forallb (fun x => zmem x (i_vars s)) out) eqn:Ef; simpl andb in H; [|discriminate].
  destruct (o_leaves o); [|discriminate].
  inversion H; subst s' ks. split; [reflexivity|]. gsimp. split; [reflexivity|]. split; [|lia].
  assert (Hp: Permutation (elems (g_unm (i_gm s))) (out ++ elems (filter (fun e => n <? fst e) (g_unm (i_gm s))))).
  { rewrite filter_gt_negb. apply elems_filter_perm. }
  pose proof (Permutation_NoDup Hp (inv_unm_nodup _ (inv_gm _ I))) as ND.
  assert (Ho: forall k, In k out -> In k (elems (g_unm (i_gm s)))).
  { intros k Hk. apply (Permutation_in _ (Permutation_sym Hp)). apply in_or_app; auto. }
  assert (Hr: forall k, In k (elems (filter (fun e => n <? fst e) (g_unm (i_gm s)))) -> In k (elems (g_unm (i_gm s)))).
  { intros k Hk. apply (Permutation_in _ (Permutation_sym Hp)). apply in_or_app; auto. }
  assert (Hov: forall k, In k out -> In k (i_vars s)).
  { intros k Hk. rewrite forallb_forall in Ef. apply zmem_In. apply Ef; auto. }
  constructor; gsimp.
  - apply NoDup_app_intro; auto; [eapply NoDup_app_l; eauto|]. intros k Hk Hk2. apply (D k Hk). auto.
  - intros k Hk. apply in_app_or in Hk. destruct Hk as [Hk|Hk]; [auto|]. apply (inv_unm_val _ (inv_gm _ I)). auto.
  - intros k Hk. destruct (C k Hk) as [Hm|Hu]; [left; apply in_or_app; auto|].
    apply (Permutation_in _ Hp) in Hu. apply in_app_or in Hu. destruct Hu; [left; apply in_or_app; auto|auto].
  - intros k Hk Hu. apply in_app_or in Hk. destruct Hk as [Hk|Hk]; [apply (D k); auto|].
    eapply NoDup_app_disj; eauto.
  - intros k Hk Hv. apply filter_In in Hv. destruct Hv as [Hv Hz]. apply in_app_or in Hk. destruct Hk as [Hk|Hk].
    + apply (E k); auto.
    + apply zmem_In in Hk. rewrite Hk in Hz. discriminate.
  - intros k Hk Hv. apply in_app_or in Hk. destruct Hk as [Hk|Hk]; [apply (F k); auto|].
    apply (inv_vars_new _ I k); auto.
Qed.

(* shape of a successful optimisation *)
Lemma optimise_ok_shape o m s M s' fs vs ks :
  igm_inv s -> marg_inv s M -> igm_optimise o m s = (s', Ok (fs, vs, ks)) ->
  exists s3, igm_inv s3 /\ marg_inv s3 M /\ g_unm (i_gm s3) = g_unm (i_gm s) /\
    (forall k, In k (mkeys (g_val (i_gm s3))) <-> In k (mkeys (g_val (i_gm s)))) /\ i_opt s3 = m /\
    if i_marg_on s && (i_marg_key s <=? m - i_window s)
    then igm_marginalise o (m - i_window s) s3 = (s', Ok ks)
    else s' = s3 /\ ks = [].
Proof.
  intros I Hm H. destruct (igm_optimise_split o m s I) as [(g1 & E & R)|[(g1 & E & R)|[(g1 & fs' & vs' & E & A & R)|(g1 & fs' & vs' & E & A & R)]]];
    try (rewrite R in H; discriminate).
  cbv zeta in R. destruct R as (_ & I3 & R). rewrite R in H.
  pose proof E as E'. apply igm_extract_spec in E; [|apply inv_gm; auto].
  destruct E as (I1 & Ef & Enf & Hsub & Hvs & Env & Ev & Eu & _).
  set (g2 := fst (gm_update_all (estimate o (i_vars s ++ mkeys vs')) g1)) in *.
  set (s3 := mkIgm g2 (i_vars s ++ mkeys vs') (i_facs s ++ fs') m (i_marg_on s) (i_marg_key s) (i_window s)) in *.
  pose proof (gm_update_all_frame (estimate o (i_vars s ++ mkeys vs')) g1) as F. cbv zeta in F. fold g2 in F.
  destruct F as (_&_&_&_&_&_&_&_&_&Fu&Fn&Fv).
  exists s3. split; [exact I3|]. assert (Hu: g_unm (i_gm s3) = g_unm (i_gm s)) by (subst s3; gsimp; congruence).
  assert (Hv: forall k, In k (mkeys (g_val (i_gm s3))) <-> In k (mkeys (g_val (i_gm s)))).
  { intros k. subst s3. gsimp. rewrite Fv, Ev. tauto. }
  split; [|split; [exact Hu|split; [exact Hv|split; [reflexivity|]]]].
  - destruct Hm as [A1 B1 C1 D1 E1 F1]. constructor; auto.
    + intros k Hk. apply Hv. auto.
    + intros k Hk. rewrite Hu. apply C1. apply Hv. auto.
    + intros k Hk. rewrite Hu. auto.
    + intros k Hk Hx. subst s3. gsimp. apply in_app_or in Hx. destruct Hx as [Hx|Hx]; [apply (E1 k); auto|].
      apply (F1 k Hk). apply mmem_true in Hx. apply mmem_mget in Hx. destruct Hx as [v Hx].
      apply Hsub in Hx. eapply mget_key_In; eauto.
    + intros k Hk Hx. subst s3. gsimp. apply Fn in Hx. apply (F1 k Hk). rewrite Env in Hx.
      apply mmem_true in Hx. apply mmem_mget in Hx. destruct Hx as [v Hx].
      rewrite mget_del_all in Hx by (destruct (inv_gm _ I); auto). destruct (mmem k vs'); [discriminate|].
      eapply mget_key_In; eauto.
  - destruct (i_marg_on s && (i_marg_key s <=? m - i_window s)).
    + destruct (igm_marginalise o (m - i_window s) s3) as [s4 [ks'| |]]; cbn [fst snd] in H; inversion H; subst; reflexivity.
    + inversion H; subst. auto.
Qed.

Lemma marg_step s op M :
  igm_inv s -> marg_inv s M -> (plain op = false -> is_ok (snd (gm_step bp s op)) = true) ->
  marg_inv (fst (gm_step bp s op)) (M ++ margs [snd (gm_step bp s op)]).
Proof.
  intros I Hm Hok. unfold margs. simpl. rewrite app_nil_r. destruct (plain op) eqn:Hp.
  - pose proof (plain_marg s op M I Hp Hm) as H.
    assert (Hk: match snd (gm_step bp s op) with Ok (_, _, ks) => ks | _ => [] end = []).
    { destruct (snd (gm_step bp s op)) as [[[fs vs] ks]| |] eqn:E; auto. eapply plain_obs; eauto. }
    rewrite Hk, app_nil_r. exact H.
  - specialize (Hok eq_refl). destruct op; try discriminate Hp; simpl gm_step in *.
    + destruct (igm_optimise o m s) as [s' [[[fs vs] ks]| |]] eqn:E; try discriminate. cbn [fst snd].
      destruct (optimise_ok_shape o m s M s' fs vs ks I Hm E) as (s3 & I3 & Hm3 & _ & _ & _ & H).
      destruct (i_marg_on s && (i_marg_key s <=? m - i_window s)).
      * eapply marginalise_ok; eauto.
      * destruct H; subst. rewrite app_nil_r. exact Hm3.
    + destruct (igm_marginalise o k s) as [s' [ks| |]] eqn:E; try discriminate. cbn [fst snd].
      eapply marginalise_ok; eauto.
Qed.

Lemma margs_app a b : margs (a ++ b) = margs a ++ margs b.
Proof. apply flat_map_app. Qed.

Lemma marg_run ops s M :
  igm_inv s -> marg_inv s M -> solver_ok s ops -> marg_inv (gm_run bp s ops) (M ++ margs (gm_trace bp s ops)).
Proof.
  revert s M. induction ops as [|op ops IH]; cbn [gm_run gm_trace solver_ok]; intros s M I Hm Hok.
  - unfold margs. simpl. rewrite app_nil_r. exact Hm.
  - destruct Hok as [H1 H2]. change (snd (gm_step bp s op) :: gm_trace bp (fst (gm_step bp s op)) ops) with
      ([snd (gm_step bp s op)] ++ gm_trace bp (fst (gm_step bp s op)) ops).
    rewrite margs_app, app_assoc. apply IH; auto using gm_step_inv. apply marg_step; auto.
Qed.

Lemma marg_init : marg_inv igm_init [].
Proof. constructor; simpl; try tauto. constructor. Qed.

Lemma marginalise_beyond o k s : i_opt s < k -> gm_step bp s (OMarginalise o k) = (s, Throw).
Proof. intros H. simpl. unfold igm_marginalise. destruct (Z.ltb_spec (i_opt s) k); [reflexivity|lia]. Qed.

(* C13 *)
Lemma window_exact ops o m s' fs vs ks :
  let s := gm_run bp igm_init ops in
  let old := margs (gm_trace bp igm_init ops) in
  solver_ok igm_init ops -> gm_step bp s (OOptimise o m) = (s', Ok (fs, vs, ks)) ->
  i_marg_on s = true -> i_marg_key s <= m - i_window s ->
  (forall c n, idx_ok n = true ->
     (In (raw c n) ks <-> n <= m - i_window s /\ In (raw c n) (mkeys (g_val (i_gm s))) /\ ~ In (raw c n) old)) /\
  (forall c n, idx_ok n = true -> In (raw c n) (i_vars s') -> m - i_window s < n).
Proof.
  intros s old Hok E Hon Hk.
  assert (I: igm_inv s) by (apply gm_run_inv, igm_init_inv).
  pose proof (marg_run ops igm_init [] igm_init_inv marg_init Hok) as Hm. simpl app in Hm. fold s old in Hm.
  simpl in E. destruct (optimise_ok_shape o m s old s' fs vs ks I Hm E) as (s3 & I3 & Hm3 & Hu & Hv & Ho & H).
  assert (Hc: i_marg_on s && (i_marg_key s <=? m - i_window s) = true) by (rewrite Hon; simpl; lia).
  rewrite Hc in H. destruct (marginalise_ok o _ s3 old s' ks I3 Hm3 H) as (Hks & Hu' & Hm' & _).
  assert (Su: msorted (g_unm (i_gm s3))) by (destruct (inv_gm _ I3); auto).
  assert (Hkey: forall c n, idx_ok n = true -> In (raw c n) (elems (g_unm (i_gm s3))) -> In (raw c n) (mentry n (g_unm (i_gm s3)))).
  { intros c n Hn Hin. apply In_elems in Hin; auto. destruct Hin as [j Hj].
    destruct (inv_unm_key _ (inv_gm _ I3) j _ Hj) as (c' & Hj' & Er). apply raw_inj in Er; auto.
    destruct Er as [_ <-]. exact Hj. }
  assert (Hks2: forall c n, idx_ok n = true -> (In (raw c n) ks <-> n <= m - i_window s /\ In (raw c n) (elems (g_unm (i_gm s3))))).
  { intros c n Hn. rewrite Hks. rewrite In_elems by (apply msorted_filter; auto). split.
    - intros [j Hj]. rewrite (mentry_filter (fun x => x <=? m - i_window s)) in Hj.
      destruct (Z.leb_spec j (m - i_window s)) as [Hl|Hl]; [|inversion Hj].
      assert (Hin: In (raw c n) (elems (g_unm (i_gm s3)))) by (apply In_elems; eauto).
      destruct (inv_unm_key _ (inv_gm _ I3) j _ Hj) as (c' & Hj' & Er). apply raw_inj in Er; auto.
      destruct Er as [_ <-]. auto.
    - intros [Hl Hin]. exists n. rewrite (mentry_filter (fun x => x <=? m - i_window s)).
      destruct (Z.leb_spec n (m - i_window s)); [|lia]. apply Hkey; auto. }
  split.
  - intros c n Hn. rewrite Hks2 by auto. split.
    + intros [Hl Hin]. split; [auto|]. split.
      * apply Hv. apply (inv_unm_val _ (inv_gm _ I3)). auto.
      * intros Hold. apply (mi_disj _ _ Hm3 _ Hold). auto.
    + intros (Hl & Hval & Hold). split; [auto|]. apply Hv in Hval. destruct (mi_cover _ _ Hm3 _ Hval); [contradiction|auto].
  - intros c n Hn Hin. destruct (Z.ltb_spec (m - i_window s) n) as [|Hle]; [auto|]. exfalso.
    assert (I': igm_inv s') by (pose proof (igm_optimise_inv o m s I) as X; rewrite E in X; exact X).
    apply (mi_vars _ _ Hm' (raw c n)); [|exact Hin].
    pose proof (inv_vars_val _ I' _ Hin) as Hval. destruct (mi_cover _ _ Hm' _ Hval) as [|Hun]; [auto|]. exfalso.
    rewrite Hu' in Hun. apply In_elems in Hun; [|apply msorted_filter; auto]. destruct Hun as [j Hj].
    rewrite (mentry_filter (fun x => m - i_window s <? x)) in Hj. destruct (Z.ltb_spec (m - i_window s) j) as [Hlt|]; [|inversion Hj].
    destruct (inv_unm_key _ (inv_gm _ I3) j _ Hj) as (c' & Hj' & Er). apply raw_inj in Er; auto. destruct Er as [_ ->]. lia.
Qed.

Lemma marginalised_once ops : solver_ok igm_init ops -> NoDup (margs (gm_trace bp igm_init ops)).
Proof. intros H. apply (mi_nodup _ _ (marg_run ops igm_init [] igm_init_inv marg_init H)). Qed.

Lemma window_off ops o m s' fs vs ks :
  let s := gm_run bp igm_init ops in
  gm_step bp s (OOptimise o m) = (s', Ok (fs, vs, ks)) ->
  i_marg_on s = false \/ m - i_window s < i_marg_key s -> ks = [].
Proof.
  intros s E H. assert (I: igm_inv s) by (apply gm_run_inv, igm_init_inv). simpl in E.
  destruct (igm_optimise_split o m s I) as [(g1 & E1 & R)|[(g1 & E1 & R)|[(g1 & fs' & vs' & E1 & A & R)|(g1 & fs' & vs' & E1 & A & R)]]];
    try (rewrite R in E; discriminate).
  cbv zeta in R. destruct R as (_ & _ & R).
  assert (Hc: i_marg_on s && (i_marg_key s <=? m - i_window s) = false).
  { destruct H as [->|H]; [reflexivity|]. apply andb_false_iff. right. lia. }
  rewrite Hc in R. rewrite R in E. inversion E. reflexivity.
Qed.

(* ---------------- named keys ---------------- *)
Lemma optimise_frame o m s : igm_inv s ->
  let g' := i_gm (fst (igm_optimise o m s)) in g_keys g' = g_keys (i_gm s) /\ g_ts g' = g_ts (i_gm s).
Proof.
  intros I. cbv zeta. pose proof (igm_extract_frame o m (i_gm s) (inv_gm _ I)) as Fr. cbv zeta in Fr.
  destruct (igm_optimise_split o m s I) as [(g1 & E & R)|[(g1 & E & R)|[(g1 & fs & vs & E & A & R)|(g1 & fs & vs & E & A & R)]]];
    try (rewrite R, E in *; cbn [fst] in *; gsimp; tauto).
  cbv zeta in R. destruct R as (_ & _ & R). rewrite R, E in *. cbn [fst] in *.
  destruct Fr as (_&_&_&_&F1&F2&_).
  pose proof (gm_update_all_frame (estimate o (i_vars s ++ mkeys vs)) g1) as F. cbv zeta in F.
  destruct F as (U1&U2&_). destruct (i_marg_on s && (i_marg_key s <=? m - i_window s)); cbn [fst].
  - destruct (igm_marginalise_frame o (m - i_window s) (mkIgm (fst (gm_update_all (estimate o (i_vars s ++ mkeys vs)) g1)) (i_vars s ++ mkeys vs) (i_facs s ++ fs) m (i_marg_on s) (i_marg_key s) (i_window s))) as (_&_&_&_&M1&M2&_).
    rewrite M1, M2. gsimp. split; congruence.
  - gsimp. split; congruence.
Qed.

(* calls not about names leave names; calls not about timestamps leave timestamps *)
Lemma step_keys s op : igm_inv s -> forall n,
  sget n (g_keys (i_gm (fst (gm_step bp s op)))) = named_after n op (sget n (g_keys (i_gm s))).
Proof.
  intros I n. pose proof (inv_gm _ I) as Ig.
  assert (Set_: forall c k v, g_keys (fst (gm_set c k v (i_gm s))) = g_keys (i_gm s)).
  { intros c k v. pose proof (gm_set_frame c k v (i_gm s) Ig) as F. cbv zeta in F. tauto. }
  destruct op; simpl gm_step; simpl named_after; try reflexivity; try (unfold lift; gsimp; rewrite Set_; reflexivity).
  - unfold lift, gm_set_navstate. gsimp. pose proof (gm_set_inv SymX k p _ Ig) as I0. specialize (Set_ SymX k p).
    destruct (gm_set SymX k p (i_gm s)) as [g1 [u| |]]; cbn [fst] in *; try congruence.
    pose proof (gm_set_frame SymV k v g1 I0) as F. cbv zeta in F. destruct F as (F&_). rewrite F, Set_. reflexivity.
  - unfold lift, gm_set_named_key. gsimp. apply sget_sput.
  - unfold lift, gm_increment. destruct (sget name (g_keys (i_gm s))) as [[k p]|] eqn:E; gsimp.
    + rewrite sget_sput. destruct (String.eqb_spec n name); [subst; rewrite E; reflexivity|reflexivity].
    + destruct (String.eqb_spec n name); [subst; rewrite E; reflexivity|reflexivity].
  - unfold lift, gm_set_timestamp. destruct (0 <=? k); reflexivity.
  - destruct kind; try reflexivity; unfold lift; gsimp;
      match goal with |- context [gm_create ?a ?b ?c ?d ?e] => destruct (gm_create_frame a b c d e) as (_&_&F&_) end;
      rewrite F; reflexivity.
  - unfold lift. gsimp. destruct (gm_create_stereo bp k features (i_gm s)) as [g' r] eqn:E. cbn [fst].
    assert (g_keys g' = g_keys (i_gm s)) as ->; [|reflexivity].
    change g' with (fst (g', r)). rewrite <- E. clear E g' r.
    unfold gm_create_stereo. destruct (mmem k (g_feat (i_gm s))); [reflexivity|].
    set (g2 := with_fac _ _ _). assert (K2: g_keys g2 = g_keys (i_gm s)) by reflexivity.
    assert (I2: gm_inv g2).
    { subst g2. pose proof Ig as I'. destruct I'. apply with_fac_inv; gsimp; auto using mtouch_sorted.
      apply with_feat_inv; auto using msorted_mput. }
    destruct (rev (g_feat g2)) as [|[k1 fi] [|[k2 im1] rest]]; try exact K2.
    destruct (gm_has SymX k g2) as [[|]| |]; try exact K2.
    destruct (gm_get SymX k g2); try exact K2. destruct (g_cam g2); try exact K2.
    set (g3 := with_ids _ _ g2). assert (K3: g_keys g3 = g_keys (i_gm s)) by reflexivity.
    assert (I3: gm_inv g3).
    { subst g3. pose proof I2 as I3. destruct I3. apply with_ids_inv; auto using mtouch_sorted. }
    rewrite <- K3. clearbody g3. clear - I3. revert g3 I3. induction fi as [|[id meas] fi IH]; intros g I; [reflexivity|]. simpl.
    pose proof (stereo_feature_inv bp k im1 (match rest with [] => None | (_, f) :: _ => Some f end) a z id meas g I) as I1.
    assert (K: g_keys (fst (stereo_feature bp k im1 (match rest with [] => None | (_, f) :: _ => Some f end) a z id meas g)) = g_keys g).
    { clear IH I1. unfold stereo_feature. destruct (mget id im1) as [m1|]; [|reflexivity].
      remember (stereo_first k (match rest with [] => None | (_, f) :: _ => Some f end) id m1 g) as r1 eqn:Er1.
      assert (X1: gm_inv (fst r1) /\ g_keys (fst r1) = g_keys g).
      { subst r1. unfold stereo_first.
        destruct (match (match rest with [] => None | (_, f) :: _ => Some f end) with Some f => negb (mmem id f) | None => true end); [|auto].
        destruct (sym_keys [(SymX, k - 1); (SymS, id)]); cbn [fst]; auto. split; [|reflexivity].
        apply with_ids_inv; [apply gm_add_factor_inv; auto| |]; gsimp; apply mpush_sorted;
          apply (gm_add_factor_inv k (mkFactor FStereo [] 0) g) in I; destruct I; auto. }
      destruct X1 as [X1 K1]. destruct r1 as [g1 [u| |]]; cbn [fst] in *; auto. destruct (g_calib g1); auto.
      pose proof (gm_set_frame SymS id (bp a z z0 meas) g1 X1) as F. cbv zeta in F. destruct F as (F&_).
      destruct (gm_set SymS id (bp a z z0 meas) g1) as [g2 [u2| |]]; cbn [fst] in *; try congruence.
      destruct (sym_keys [(SymX, k); (SymS, id)]); cbn [fst]; try congruence. unfold gm_add_factor. gsimp. congruence. }
    destruct (stereo_feature bp k im1 _ a z id meas g) as [g1 [u| |]]; cbn [fst] in *; auto. rewrite <- K. apply IH. auto.
  - unfold lift. gsimp. pose proof (gm_update_all_frame l (i_gm s)) as F. cbv zeta in F. destruct F as (F&_). rewrite F. reflexivity.
  - destruct (optimise_frame o m s I) as [F _]. cbv zeta in F. unfold obs in *. rewrite F. reflexivity.
  - destruct (igm_marginalise_frame o k s) as (_&_&_&_&M&_).
    destruct (igm_marginalise o k s) as [s' [ks| |]]; cbn [fst] in *; rewrite M; reflexivity.
Qed.

Lemma run_keys ops s n : igm_inv s ->
  sget n (g_keys (i_gm (gm_run bp s ops))) = fold_left (fun cur op => named_after n op cur) ops (sget n (g_keys (i_gm s))).
Proof.
  revert s. induction ops as [|op ops IH]; simpl; intros s I; [reflexivity|].
  rewrite IH by (apply gm_step_inv; auto). rewrite step_keys by auto. reflexivity.
Qed.
End Hist.
