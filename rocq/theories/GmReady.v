(* Well-formed use of the graph manager never fails (C54): the calling contract [wf_op] of one call and
   the proof that in every state reached by calls satisfying it the next such call succeeds, in
   particular that the optimiser never receives a factor on a variable it was not given. *)
From Verif Require Import Base GmModel GmSpec GmInv GmProofs GmFactors GmValues GmHist GmKeys GmStereo GmIds.

(* ---- the calling contract ---- *)
(* feature ids are tracked without interruption: present in two frames implies present in between *)
Definition contiguous (frames : list (omap Z)) : Prop :=
  forall i j l a b c id, (i <= j)%nat -> (j <= l)%nat ->
    nth_error frames i = Some a -> nth_error frames j = Some b -> nth_error frames l = Some c ->
    mget id a <> None -> mget id c <> None -> mget id b <> None.

Definition has_val (g : gm) (rk : Z) : Prop := mget rk (g_val g) <> None.

Definition wf_op (s : igm) (op : gmop) : Prop :=
  let g := i_gm s in
  match op with
  | OSetPose k _ | OSetVel k _ | OSetBias k _ | OSetBaro k _ | OSetNavstate k _ _ => 0 <= k < 2 ^ 56
  | OSetNamedKey _ _ _ | OSetCalib _ | OSetCam _ => True
  | OIncrement n => sget n (g_keys g) <> None
  | OSetTimestamp k _ => 0 <= k
  | OCreate kind k _ =>
      kind <> FStereo /\
      forall c i, In (c, i) (spec_vars kind k) -> 0 <= i < 2 ^ 56
  | OStereo k f =>
      msorted f /\ (forall id, mget id f <> None -> 0 <= id < 2 ^ 56) /\
      (forall j, mget j (g_feat g) <> None -> j < k) /\
      contiguous (map snd (g_feat g) ++ [f]) /\
      (g_feat g <> [] ->
         1 <= k < 2 ^ 56 /\ has_val g (raw SymX k) /\ has_val g (raw SymX (k - 1)) /\ g_cam g <> None /\ g_calib g <> None)
  | OUpdateAll l => forall rk, In rk (mkeys l) -> has_val g rk
  | OOptimise o m =>
      end_harmless (o_end o) /\ o_solve o = true /\ 0 <= m < 2 ^ 56 /\
      (* the variables of the factors about to be handed over have been given values *)
      forall k f v, k <= m -> In f (mentry k (g_new_fac g)) -> In v (f_vars f) -> has_val g v
  | OMarginalise _ _ => False
  | OSetMarg b _ => b = false
  end.

Section Ready.
Variable bp : Z -> Z -> Z -> Z -> Z.

Fixpoint wf_run (s : igm) (ops : list gmop) : Prop :=
  match ops with [] => True | op :: ops' => wf_op s op /\ wf_run (fst (gm_step bp s op)) ops' end.

(* ---- the invariant ---- *)
Definition avail (g : gm) (k rk : Z) : Prop :=
  (exists c i, state_sym c = true /\ idx_ok i = true /\ i <= k /\ rk = raw c i) \/
  (exists id j, idx_ok id = true /\ j <= k /\ listed g j id /\ rk = raw SymS id).

Record rdy (s : igm) : Prop := {
  r_inv : igm_inv s;
  r_ids : ids_ok (i_gm s);
  r_feats : feats_ok (i_gm s);
  r_list : list_inv (i_gm s);
  r_cover : forall v, In v (mkeys (g_val (i_gm s))) -> In v (i_vars s) \/ In v (mkeys (g_new_val (i_gm s)));
  r_lm : forall id, idx_ok id = true -> In (raw SymS id) (mkeys (g_val (i_gm s))) ->
         exists j k, listed (i_gm s) j id /\ j <= k /\ In k (mkeys (g_feat (i_gm s)));
  r_src : forall id, idx_ok id = true -> In (raw SymS id) (mkeys (g_val (i_gm s))) ->
         exists i a b, nth_error (map snd (g_feat (i_gm s))) i = Some a /\
                       nth_error (map snd (g_feat (i_gm s))) (S i) = Some b /\
                       mget id a <> None /\ mget id b <> None;
  r_pairs : forall id i a b, nth_error (map snd (g_feat (i_gm s))) i = Some a ->
                       nth_error (map snd (g_feat (i_gm s))) (S i) = Some b ->
                       mget id a <> None -> mget id b <> None -> In (raw SymS id) (mkeys (g_val (i_gm s)));
  r_fac : forall k f v, In f (mentry k (g_new_fac (i_gm s))) -> In v (f_vars f) -> avail (i_gm s) k v;
  r_marg : i_marg_on s = false
}.

Lemma idx_ok_lim i : idx_ok i = true <-> 0 <= i < 2 ^ 56.
Proof. unfold idx_ok. change idx_lim with (2 ^ 56). generalize (2 ^ 56). intros. lia. Qed.

Lemma has_val_key g rk : has_val g rk <-> In rk (mkeys (g_val g)).
Proof.
  unfold has_val. rewrite <- mmem_true. unfold mmem. destruct (mget rk (g_val g)); split; congruence.
Qed.

Lemma some_key {A} k (m : omap A) : mget k m <> None <-> In k (mkeys m).
Proof. rewrite <- mmem_true. unfold mmem. destruct (mget k m); split; congruence. Qed.

Lemma rdy_init : rdy igm_init.
Proof.
  constructor; simpl; try tauto; try (apply ids_ok_init).
  - apply igm_init_inv.
  - apply list_inv_init.
  - intros id i a b H. destruct i; discriminate.
Qed.

Lemma avail_mono g g' k v :
  (forall j id, listed g j id -> listed g' j id) -> avail g k v -> avail g' k v.
Proof.
  intros H2 [(c & i & A & B & C & D)|(id & j & A & B & C & D)].
  - left. exists c, i. auto 6.
  - right. exists id, j. auto.
Qed.

(* ---- success of the calls other than optimise ---- *)
Lemma lift_ok s r : snd r = Ok tt -> exists x, snd (lift s r) = Ok x.
Proof. intros H. unfold lift. cbn [snd]. rewrite H. simpl. eauto. Qed.

Lemma gm_set_ok c k v g : gm_inv g -> 0 <= k < 2 ^ 56 -> snd (gm_set c k v g) = Ok tt.
Proof. intros I Hk. apply idx_ok_lim in Hk. destruct (gm_set_val c k v g I) as [_ E]. rewrite Hk in E. exact E. Qed.

Lemma spec_vars_ok kind k :
  (forall c i, In (c, i) (spec_vars kind k) -> 0 <= i < 2 ^ 56) ->
  forallb (fun v => idx_ok (snd v)) (factor_vars kind k) = true.
Proof.
  intros H. destruct (vars_table kind k) as [<- _]. apply forallb_forall. intros [c i] Hi. apply H in Hi. simpl snd. lia.
Qed.

Lemma create_ok kind k meas g :
  (forall c i, In (c, i) (spec_vars kind k) -> 0 <= i < 2 ^ 56) ->
  snd (gm_create kind k (factor_vars kind k) meas g) = Ok tt.
Proof.
  intros H. unfold gm_create. rewrite sym_keys_spec, spec_vars_ok by auto. reflexivity.
Qed.

(* the two newest frames after storing a new one *)
Lemma stored k f g : gm_inv g -> (forall j, mget j (g_feat g) <> None -> j < k) ->
  mmem k (g_feat g) = false /\ mput k f (g_feat g) = g_feat g ++ [(k, f)].
Proof.
  intros I H. split.
  - apply mmem_false. destruct (mget k (g_feat g)) eqn:E; [|reflexivity].
    assert (k < k); [apply H; congruence|lia].
  - apply mput_last; [destruct I; auto|]. intros j Hj. apply H. apply some_key. exact Hj.
Qed.

Lemma tracks_ok_all k fi im1 im2 :
  (forall id, mget id fi <> None -> 0 <= id < 2 ^ 56) -> msorted fi -> 1 <= k < 2 ^ 56 ->
  forallb (track_ok k) (tracks_of fi im1 im2) = true.
Proof.
  intros H S Hk. apply forallb_forall. intros t Ht. apply tracks_In in Ht. unfold track_ok.
  assert (idx_ok (t_id t) = true) as -> by (apply idx_ok_lim, H, some_key; exact Ht).
  assert (idx_ok (k - 1) = true) as -> by (apply idx_ok_lim; lia). destruct (t_first t); reflexivity.
Qed.

Lemma stereo_succeeds k f s : rdy s -> wf_op s (OStereo k f) ->
  snd (gm_create_stereo bp k f (i_gm s)) = Ok tt.
Proof.
  intros R (Sf & Hids & Hlt & _ & Hne). pose proof (inv_gm _ (r_inv _ R)) as I. set (g := i_gm s) in *.
  destruct (stored k f g I Hlt) as [Hm Hp]. unfold gm_create_stereo. rewrite Hm.
  set (g2 := with_fac _ _ _). change (g_feat g2) with (mput k f (g_feat g)). rewrite Hp, rev_app_distr. simpl app.
  destruct (rev (g_feat g)) as [|[k1 f1] rest] eqn:Er; [reflexivity|].
  destruct Hne as (Hk & Hx & Hx1 & Hcam & Hcal). { intros C. rewrite C in Er. discriminate. }
  assert (Hki: idx_ok k = true) by (apply idx_ok_lim; lia).
  unfold gm_has, gm_get, sym_key. rewrite Hki. unfold has_val in Hx. unfold mmem. change (g_val g2) with (g_val g).
  destruct (mget (raw SymX k) (g_val g)) as [p|]; [|congruence].
  change (g_cam g2) with (g_cam g). destruct (g_cam g) as [c|]; [|congruence].
  set (g3 := with_ids _ _ g2). set (im2 := match rest with [] => None | (_, f2) :: _ => Some f2 end).
  assert (I3: gm_inv g3).
  { subst g3 g2. pose proof I as I3. destruct I3. apply with_ids_inv; gsimp; auto using mtouch_sorted.
    apply with_fac_inv; gsimp; auto using mtouch_sorted. apply with_feat_inv; auto using msorted_mput. }
  destruct (g_calib g) as [kal|] eqn:Ec; [|congruence].
  destruct (stereo_loop_exact bp k f1 im2 p c f g3 kal I3 Hki Ec) as (g' & E' & _). cbv zeta in E'. rewrite E'. cbn [snd].
  rewrite (tracks_ok_all k f f1 im2) by (auto; lia). reflexivity.
Qed.

Lemma plain_succeeds s op : rdy s -> wf_op s op -> plain op = true -> exists x, snd (gm_step bp s op) = Ok x.
Proof.
  intros R W Hp. pose proof (inv_gm _ (r_inv _ R)) as I. destruct op; try discriminate Hp; simpl gm_step; cbn [wf_op] in W;
    try (apply lift_ok, gm_set_ok; auto; fail); try (apply lift_ok; reflexivity).
  - apply lift_ok. unfold gm_set_navstate. pose proof (gm_set_ok SymX k p (i_gm s) I W) as E.
    pose proof (gm_set_inv SymX k p (i_gm s) I) as I1. destruct (gm_set SymX k p (i_gm s)) as [g1 r]. cbn [fst snd] in *.
    subst r. apply gm_set_ok; auto.
  - apply lift_ok. unfold gm_increment. destruct (sget name (g_keys (i_gm s))) as [[? ?]|]; [reflexivity|congruence].
  - apply lift_ok. unfold gm_set_timestamp. apply Z.leb_le in W. rewrite W. reflexivity.
  - destruct W as [Hk W]. assert (E: snd (gm_create kind k (factor_vars kind k) meas (i_gm s)) = Ok tt).
    { apply create_ok. exact W. }
    destruct kind; try contradiction; apply lift_ok; exact E.
  - apply lift_ok. apply stereo_succeeds; auto.
  - apply lift_ok. apply gm_update_all_ok; [|destruct I; auto]. intros rk Hk. apply has_val_key. auto.
  - eexists; reflexivity.
Qed.

(* ---- preservation ---- *)
Lemma mkeys_apply_writes ws m k : msorted m -> (In k (mkeys (apply_writes ws m)) <-> In k (map fst ws) \/ In k (mkeys m)).
Proof.
  intros S. rewrite <- !some_key, mget_apply_writes. pose proof (last_write_None k ws) as H.
  destruct (last_write k ws) eqn:E.
  - split; [|congruence]. intros _. left. destruct (in_dec Z.eq_dec k (map fst ws)) as [Hi|Hi]; [exact Hi|].
    apply H in Hi. discriminate.
  - split; [auto|]. intros [Hi|Hi]; [|exact Hi]. exfalso. apply (proj1 H); auto.
Qed.

(* a call that stores no frame creates no landmark variable *)
Lemma no_new_landmark s op : rdy s -> wf_op s op -> (forall k f, op <> OStereo k f) -> plain op = true ->
  forall id, idx_ok id = true -> In (raw SymS id) (mkeys (g_val (i_gm (fst (gm_step bp s op))))) ->
  In (raw SymS id) (mkeys (g_val (i_gm s))).
Proof.
  intros R W Hns Hp id Hid H. pose proof (r_inv _ R) as I. pose proof (inv_gm _ I) as Ig.
  destruct (plain_succeeds s op R W Hp) as [x Hx].
  rewrite (step_writes bp s op I) in H by congruence. apply mkeys_apply_writes in H; [|destruct Ig; auto].
  destruct H as [H|H]; [|exact H].
  assert (One: forall c k (v : Z), c <> SymS -> In (raw SymS id) (map fst (if idx_ok k then [(raw c k, v)] else [])) -> False).
  { intros c k v Hc Hi. destruct (idx_ok k) eqn:Hk; [|inversion Hi]. destruct Hi as [E|[]]. simpl in E.
    symmetry in E. apply raw_inj in E; auto. destruct E. congruence. }
  destruct op; try discriminate Hp; simpl writes in H; try (inversion H; fail);
    try (exfalso; eapply One; [|exact H]; discriminate).
  - exfalso. rewrite map_app in H. apply in_app_or in H. destruct H as [H|H]; (eapply One; [|exact H]; discriminate).
  - exfalso. eapply Hns; reflexivity.
  - apply in_map_iff in H. destruct H as (w & E & Hw). apply take_while_In in Hw. rewrite <- E. apply mmem_true. tauto.
Qed.

Lemma pending_after s op k f : igm_inv s -> snd (gm_step bp s op) <> UB -> opt_bound op = None ->
  In f (mentry k (g_new_fac (i_gm (fst (gm_step bp s op))))) ->
  In f (mentry k (g_new_fac (i_gm s))) \/ In (k, f) (creations s op).
Proof.
  intros I NU OB H. pose proof (inv_gm _ I) as Ig.
  rewrite (step_pending bp s op (flat (g_new_fac (i_gm s))) I NU OB) in H.
  - rewrite at_key_app, flat_at in H by (destruct Ig; auto). apply in_app_or in H. destruct H as [H|H]; [auto|].
    right. apply at_key_In. exact H.
  - intros j. rewrite flat_at by (destruct Ig; auto). reflexivity.
Qed.

Lemma fresh_of_plain s op : (forall k f, op <> OStereo k f) -> plain op = true -> fresh_op s op.
Proof. intros H Hp. destruct op; simpl; auto; try discriminate. exfalso. eapply H; reflexivity. Qed.

Lemma plain_marg_on s op : plain op = true -> wf_op s op -> i_marg_on s = false -> i_marg_on (fst (gm_step bp s op)) = false.
Proof. destruct op; try discriminate; simpl; auto. destruct kind; auto. Qed.

(* the state symbol of a factor variable *)
Lemma factor_var_avail s kind k v : rdy s -> wf_op s (OCreate kind k v) ->
  forall x, In x (map (fun v => raw (fst v) (snd v)) (factor_vars kind k)) ->
  exists c i, state_sym c = true /\ idx_ok i = true /\ i <= k /\ x = raw c i.
Proof.
  intros R [Hk W] x Hx.
  assert (HI: forallb (fun v => idx_ok (snd v)) (factor_vars kind k) = true) by (apply spec_vars_ok; exact W).
  rewrite forallb_forall in HI.
  apply in_map_iff in Hx. destruct Hx as ([c i] & E & Hi). simpl in E. exists c, i.
  pose proof (HI _ Hi) as Hok. simpl in Hok.
  assert (state_sym c = true /\ i <= k).
  { destruct kind; simpl in Hi; intuition; match goal with H : (_, _) = (_, _) |- _ => inversion H; subst; try reflexivity; lia end. }
  split; [tauto|]. split; [exact Hok|]. split; [tauto|]. auto.
Qed.

Lemma rdy_plain s op : rdy s -> wf_op s op -> (forall k f, op <> OStereo k f) -> plain op = true ->
  rdy (fst (gm_step bp s op)).
Proof.
  intros R W Hns Hp. destruct (plain_succeeds s op R W Hp) as [x Hx].
  pose proof (r_inv _ R) as I. pose proof (inv_gm _ I) as Ig.
  assert (NU: snd (gm_step bp s op) <> UB) by congruence.
  pose proof (fresh_of_plain s op Hns Hp) as Hfr.
  destruct (fresh_step bp s op I (r_ids _ R) (r_feats _ R) Hfr NU) as [F1 F2].
  pose proof (list_inv_step bp s op I (r_ids _ R) (r_feats _ R) (r_list _ R) Hfr NU) as F3.
  pose proof (no_new_landmark s op R W Hns Hp) as Hnl.
  destruct (non_stereo bp s op I Hns) as (E1 & E2 & _). destruct (E2 0) as [E3 _]. clear E2.
  pose proof (plain_ext bp s op I Hp) as X. pose proof (plain_vars bp s op Hp) as Ev.
  pose proof (gm_step_inv bp s op I) as I'.
  pose proof (pending_after s op) as Hpend.
  pose proof (plain_marg_on s op Hp W (r_marg _ R)) as Hm.
  set (s' := fst (gm_step bp s op)) in *.
  assert (Hli: forall j id, listed (i_gm s) j id -> listed (i_gm s') j id) by (unfold listed; intros; rewrite E3; auto).
  assert (OB: opt_bound op = None) by (destruct op; try discriminate Hp; reflexivity).
  constructor; auto.
  - intros v Hv. rewrite Ev. rewrite (es_new _ _ X).
    destruct (in_dec Z.eq_dec v (mkeys (g_val (i_gm s)))) as [Hi|Hi]; [|auto].
    destruct (r_cover _ R v Hi); auto.
  - intros id Hid H. destruct (r_lm _ R id Hid (Hnl id Hid H)) as (j & k & A & B & C). exists j, k. rewrite E1. auto.
  - intros id Hid H. rewrite E1. apply (r_src _ R); auto.
  - intros id i a b. rewrite E1. intros. apply (es_val _ _ X). apply (r_pairs _ R id i a b); assumption.
  - intros k f v Hf Hv. destruct (Hpend k f I NU OB Hf) as [Hold|Hnew].
    + eapply avail_mono; [exact Hli|]. eapply (r_fac _ R); eauto.
    + destruct op; try (inversion Hnew; fail); [|exfalso; eapply Hns; reflexivity].
      assert (Hks: kind <> FStereo) by (destruct W; auto). rewrite creations_create in Hnew by auto.
      destruct (forallb _ (factor_vars kind k0)); [|inversion Hnew].
      destruct Hnew as [Hnew|[]]. inversion Hnew. subst k0 f. simpl in Hv.
      destruct (factor_var_avail s kind k meas R W v Hv) as (c & i & A & B & C & D).
      left. exists c, i. conj; auto.
Qed.

(* ---- storing a frame ---- *)
Lemma tracks_mem fi im1 im2 t : msorted fi -> In t (tracks_of fi im1 im2) ->
  mget (t_id t) fi <> None /\ mget (t_id t) im1 <> None /\
  t_first t = match im2 with Some f => negb (mmem (t_id t) f) | None => true end.
Proof.
  intros S H. pose proof (tracks_In _ _ _ _ H) as Hi. split; [apply some_key; exact Hi|].
  unfold tracks_of in H. apply in_flat_map in H. destruct H as ([id meas] & _ & Ht). simpl in Ht.
  destruct (mget id im1) eqn:E; [|inversion Ht]. destruct Ht as [<-|[]]. simpl. split; [congruence|reflexivity].
Qed.

Lemma tracks_intro fi im1 im2 id : mget id fi <> None -> mget id im1 <> None ->
  exists t, In t (tracks_of fi im1 im2) /\ t_id t = id.
Proof.
  intros H1 H2. destruct (mget id fi) as [meas|] eqn:E; [|congruence]. destruct (mget id im1) as [p|] eqn:E1; [|congruence].
  exists (mkTrack id p meas (match im2 with Some f => negb (mmem id f) | None => true end)). split; [|reflexivity].
  unfold tracks_of. apply in_flat_map. exists (id, meas). split; [apply mget_In; exact E|]. simpl. rewrite E1. left; reflexivity.
Qed.

Lemma done_cases k f s : rdy s -> wf_op s (OStereo k f) ->
  (g_feat (i_gm s) = [] /\ stereo_done k f (i_gm s) = []) \/
  (exists k1 f1 rest, rev (g_feat (i_gm s)) = (k1, f1) :: rest /\
     stereo_done k f (i_gm s) = tracks_of f f1 (match rest with [] => None | (_, f2) :: _ => Some f2 end)).
Proof.
  intros R W. pose proof (inv_gm _ (r_inv _ R)) as I. pose proof (stereo_succeeds k f s R W) as Hok.
  destruct W as (Sf & Hids & Hlt & _ & Hne). destruct (stored k f (i_gm s) I Hlt) as [Hm Hp].
  destruct (rev (g_feat (i_gm s))) as [|[k1 f1] rest] eqn:Er.
  - left. assert (g_feat (i_gm s) = []) by (apply (f_equal (@rev _)) in Er; rewrite rev_involutive in Er; exact Er).
    split; [auto|]. unfold stereo_done. rewrite Hm, Hp, rev_app_distr, Er. reflexivity.
  - right. exists k1, f1, rest. split; [reflexivity|].
    assert (Hrev: rev (mput k f (g_feat (i_gm s))) = (k, f) :: (k1, f1) :: rest) by (rewrite Hp, rev_app_distr, Er; reflexivity).
    pose proof (stereo_ok_all bp k f (i_gm s) k f k1 f1 rest I Hok Hrev) as H. cbv zeta in H. tauto.
Qed.

Lemma nth_newest {A} (l : list A) x r : rev l = x :: r -> nth_error l (length l - 1) = Some x /\ length l = S (length r).
Proof.
  intros H. apply (f_equal (@rev _)) in H. rewrite rev_involutive in H. simpl in H. subst l.
  rewrite app_length, rev_length. simpl length. split; [|lia]. replace (length r + 1 - 1)%nat with (length (rev r)) by (rewrite rev_length; lia).
  rewrite nth_error_app2 by lia. rewrite Nat.sub_diag. reflexivity.
Qed.

Lemma nth_second {A} (l : list A) x y r : rev l = x :: y :: r -> nth_error l (length l - 2) = Some y.
Proof.
  intros H. apply (f_equal (@rev _)) in H. rewrite rev_involutive in H. simpl in H. rewrite <- app_assoc in H. subst l.
  rewrite app_length, rev_length. simpl length. replace (length r + 2 - 2)%nat with (length (rev r)) by (rewrite rev_length; lia).
  rewrite nth_error_app2 by lia. rewrite Nat.sub_diag. reflexivity.
Qed.

Lemma stereo_fresh k f s : rdy s -> wf_op s (OStereo k f) -> fresh_op s (OStereo k f).
Proof.
  intros R W. pose proof (done_cases k f s R W) as D. destruct W as (Sf & Hids & Hlt & Hcont & Hne).
  split; [exact Sf|]. intros t Ht Hfirst. destruct D as [[_ D]|(k1 & f1 & rest & Er & D)]; rewrite D in Ht; [inversion Ht|].
  destruct (tracks_mem _ _ _ _ Sf Ht) as (A & B & C).
  destruct (mget (raw SymS (t_id t)) (g_val (i_gm s))) eqn:Ev; [|reflexivity]. exfalso.
  assert (Hi: idx_ok (t_id t) = true) by (apply idx_ok_lim, Hids, A).
  destruct (r_src _ R (t_id t) Hi) as (i & a & b & Ha & Hb & Ia & Ib). { apply some_key. congruence. }
  set (fr := map snd (g_feat (i_gm s))) in *.
  assert (Hl: length fr = length (g_feat (i_gm s))) by apply map_length.
  assert (Hbl: (S i < length fr)%nat) by (apply nth_error_Some; congruence).
  destruct rest as [|[k2 f2] rest].
  - destruct (nth_newest _ _ _ Er) as [_ Hn]. simpl in Hn. lia.
  - rewrite C in Hfirst. apply negb_true_iff, mmem_false in Hfirst.
    assert (H2: nth_error fr (length fr - 2) = Some f2).
    { unfold fr. rewrite map_length. rewrite nth_error_map, (nth_second _ _ _ _ Er). reflexivity. }
    apply (Hcont i (length fr - 2)%nat (length fr) a f2 f (t_id t)) in Hfirst; auto.
    + lia.
    + lia.
    + rewrite nth_error_app1 by lia. exact Ha.
    + rewrite nth_error_app1 by lia. exact H2.
    + rewrite nth_error_app2 by lia. rewrite Nat.sub_diag. reflexivity.
Qed.

Lemma rdy_stereo k f s : rdy s -> wf_op s (OStereo k f) -> rdy (fst (gm_step bp s (OStereo k f))).
Proof.
  intros R W. pose proof (stereo_fresh k f s R W) as Hfr. pose proof (done_cases k f s R W) as D.
  destruct (plain_succeeds s _ R W eq_refl) as [x Hx]. assert (NU: snd (gm_step bp s (OStereo k f)) <> UB) by congruence.
  pose proof (r_inv _ R) as I. pose proof (inv_gm _ I) as Ig.
  destruct (fresh_step bp s _ I (r_ids _ R) (r_feats _ R) Hfr NU) as [F1 F2].
  pose proof (list_inv_step bp s _ I (r_ids _ R) (r_feats _ R) (r_list _ R) Hfr NU) as F3.
  pose proof (plain_ext bp s (OStereo k f) I eq_refl) as X. pose proof (plain_vars bp s (OStereo k f) eq_refl) as Ev.
  pose proof (gm_step_inv bp s (OStereo k f) I) as I'. pose proof (pending_after s (OStereo k f)) as Hpend.
  pose proof (step_writes bp s (OStereo k f) I NU) as Hval.
  pose proof (stereo_succeeds k f s R W) as Hok.
  assert (NU': snd (gm_create_stereo bp k f (i_gm s)) <> UB) by congruence.
  destruct (gm_create_stereo_exact bp k f (i_gm s) Ig NU') as (_ & _ & _ & Ei & _ & _ & _ & _ & _ & Ef).
  pose proof W as (Sf & Hids & Hlt & Hcont & Hne). destruct (stored k f (i_gm s) Ig Hlt) as [Hm Hp].
  rewrite Hm, Hp in Ef.
  change (fst (gm_create_stereo bp k f (i_gm s))) with (i_gm (fst (gm_step bp s (OStereo k f)))) in Ei, Ef.
  assert (Hmo: i_marg_on (fst (gm_step bp s (OStereo k f))) = false) by (apply plain_marg_on; auto using (r_marg _ R)).
  set (s' := fst (gm_step bp s (OStereo k f))) in *. set (g := i_gm s) in *. set (g' := i_gm s') in *.
  set (ts := stereo_done k f g) in *.
  (* facts about the registered tracks *)
  assert (Tid: forall t, In t ts -> idx_ok (t_id t) = true /\ mget (t_id t) f <> None).
  { intros t Ht. destruct D as [[_ D]|(k1 & f1 & rest & Er & D)]; rewrite D in Ht; [inversion Ht|].
    destruct (tracks_mem _ _ _ _ Sf Ht) as (A & _). split; [apply idx_ok_lim, Hids|]; exact A. }
  assert (Tne: ts <> [] -> 1 <= k < 2 ^ 56 /\ has_val g (raw SymX k) /\ has_val g (raw SymX (k - 1)) /\ g_cam g <> None /\ g_calib g <> None).
  { intros Ht. apply Hne. intros C. destruct D as [[_ D]|(k1 & f1 & rest & Er & D)]; [contradiction|]. rewrite C in Er. discriminate. }
  assert (Hkeys: forall v, In v (mkeys (g_val g')) <-> (exists t, In t ts /\ v = raw SymS (t_id t)) \/ In v (mkeys (g_val g))).
  { intros v. rewrite Hval. rewrite mkeys_apply_writes by (destruct Ig; auto).
    assert (Hw: In v (map fst (stereo_writes bp k f g)) <-> exists t, In t ts /\ v = raw SymS (t_id t)).
    { unfold stereo_writes. fold ts. destruct ts as [|t0 ts0] eqn:Ets.
      - split; [|intros (t & [] & _)]. destruct (mget (raw SymX k) (g_val g)), (g_cam g), (g_calib g); intros [].
      - destruct Tne as (_ & Hx1 & _ & Hc & Hk); [discriminate|]. unfold has_val in Hx1.
        destruct (mget (raw SymX k) (g_val g)); [|congruence]. destruct (g_cam g); [|congruence]. destruct (g_calib g); [|congruence].
        rewrite map_map. cbn [fst]. rewrite in_map_iff. split; intros (t & A & B); exists t; auto. }
    simpl writes. fold g. rewrite Hw. tauto. }
  assert (Hnf: forall t, In t ts -> t_first t = false -> In (raw SymS (t_id t)) (mkeys (g_val g))).
  { intros t Ht Hff. destruct D as [[_ D]|(k1 & f1 & rest & Er & D)]; rewrite D in Ht; [inversion Ht|].
    destruct (tracks_mem _ _ _ _ Sf Ht) as (A & B & C). rewrite Hff in C. destruct rest as [|[k2 f2] rest]; [discriminate|].
    symmetry in C. apply negb_false_iff in C. apply mmem_true, some_key in C.
    destruct (nth_newest _ _ _ Er) as [N1 N2]. pose proof (nth_second _ _ _ _ Er) as N3. simpl in N2.
    eapply (r_pairs _ R (t_id t) (length (g_feat g) - 2) f2 f1); auto; rewrite nth_error_map.
    - fold g. rewrite N3. reflexivity.
    - fold g. replace (S (length (g_feat g) - 2)) with (length (g_feat g) - 1)%nat by lia. rewrite N1. reflexivity. }
  assert (Hli: forall j id, listed g j id -> listed g' j id).
  { unfold listed. intros j id H. rewrite Ei, mentry_push_all. destruct (j =? k); [apply in_or_app; auto|exact H]. }
  assert (Hlf: forall t, In t ts -> t_first t = true -> listed g' k (t_id t)).
  { intros t Ht Hff. unfold listed. rewrite Ei, mentry_push_all, Z.eqb_refl. apply in_or_app. right.
    apply in_map, filter_In. auto. }
  assert (Hlm: forall id, idx_ok id = true -> In (raw SymS id) (mkeys (g_val g')) ->
         exists j kk, listed g' j id /\ j <= kk /\ In kk (mkeys (g_feat g'))).
  { intros id Hid H. assert (Old: In (raw SymS id) (mkeys (g_val g)) -> exists j kk, listed g' j id /\ j <= kk /\ In kk (mkeys (g_feat g'))).
    { intros Ho. destruct (r_lm _ R id Hid Ho) as (j & kk & A & B & C). exists j, kk. rewrite Ef. unfold mkeys. rewrite map_app.
      conj; auto. apply in_or_app. left. exact C. }
    apply Hkeys in H. destruct H as [(t & Ht & E)|H]; [|auto].
    apply raw_inj in E; [|auto|apply Tid; auto]. destruct E as [_ E]. subst id.
    destruct (t_first t) eqn:Eft; [|auto]. exists k, k. conj; [auto|lia|]. rewrite Ef. unfold mkeys. rewrite map_app. apply in_or_app. right. left. reflexivity. }
  assert (Hmax: forall kk, In kk (mkeys (g_feat g')) -> kk <= k).
  { intros kk. rewrite Ef. unfold mkeys. rewrite map_app. intros H. apply in_app_or in H. destruct H as [H|[H|[]]].
    - assert (kk < k); [apply Hlt, some_key; exact H|lia].
    - simpl in H. lia. }
  assert (Hln: length (map snd (g_feat g)) = length (g_feat g)) by apply map_length.
  constructor; auto; fold g'.
  - intros v Hv. rewrite Ev, (es_new _ _ X).
    destruct (in_dec Z.eq_dec v (mkeys (g_val g))) as [Hi|Hi]; [|auto]. destruct (r_cover _ R v Hi); auto.
  - intros id Hid H. rewrite Ef, map_app. simpl map.
    assert (Old: In (raw SymS id) (mkeys (g_val g)) -> exists i a b, nth_error (map snd (g_feat g) ++ [f]) i = Some a /\
        nth_error (map snd (g_feat g) ++ [f]) (S i) = Some b /\ mget id a <> None /\ mget id b <> None).
    { intros Ho. destruct (r_src _ R id Hid Ho) as (i & a & b & A & B & C). exists i, a, b. fold g in A, B.
      rewrite !nth_error_app1; [auto| |]; apply nth_error_Some; congruence. }
    apply Hkeys in H. destruct H as [(t & Ht & E)|H]; [|auto].
    apply raw_inj in E; [|auto|apply Tid; auto]. destruct E as [_ E]. subst id.
    destruct D as [[_ D]|(k1 & f1 & rest & Er & D)]; [rewrite D in Ht; inversion Ht|].
    rewrite D in Ht. destruct (tracks_mem _ _ _ _ Sf Ht) as (A & B & C).
    destruct (nth_newest _ _ _ Er) as [N1 N2]. exists (length (g_feat g) - 1)%nat, f1, f.
    rewrite nth_error_app1 by lia. rewrite nth_error_map, N1.
    rewrite nth_error_app2 by lia. replace (S (length (g_feat g) - 1) - length (map snd (g_feat g)))%nat with 0%nat by lia. conj; auto.
  - intros id i a b. rewrite Ef, map_app. simpl map. intros Ha Hb Ia Ib. apply Hkeys.
    assert (Hil: (S i < length (map snd (g_feat g) ++ [f]))%nat) by (apply nth_error_Some; congruence).
    rewrite app_length in Hil. simpl in Hil.
    destruct (Nat.eq_dec (S i) (length (g_feat g))) as [E|E].
    + left. rewrite nth_error_app1 in Ha by lia. rewrite nth_error_app2 in Hb by lia.
      replace (S i - length (map snd (g_feat g)))%nat with 0%nat in Hb by lia. simpl in Hb. inversion Hb; subst b.
      destruct D as [[D0 D]|(k1 & f1 & rest & Er & D)]; [rewrite D0 in E; discriminate|].
      destruct (nth_newest _ _ _ Er) as [N1 N2]. rewrite nth_error_map in Ha.
      replace i with (length (g_feat g) - 1)%nat in Ha by lia. rewrite N1 in Ha. simpl in Ha. inversion Ha; subst a.
      destruct (tracks_intro f f1 (match rest with [] => None | (_, f2) :: _ => Some f2 end) id Ib Ia) as (t & Ht & E2).
      exists t. split; [rewrite D; exact Ht|congruence].
    + right. rewrite nth_error_app1 in Ha, Hb by lia. apply (r_pairs _ R id i a b); auto.
  - intros kk ff v Hf Hv. destruct (Hpend kk ff I NU eq_refl Hf) as [Hold|Hnew].
    + eapply avail_mono; [exact Hli|]. eapply (r_fac _ R); eauto.
    + simpl creations in Hnew. apply in_map_iff in Hnew. destruct Hnew as (ff' & E & Hin). inversion E; subst kk ff'. clear E.
      apply in_flat_map in Hin. destruct Hin as (t & Ht & Hin). change (In t ts) in Ht.
      assert (Hne': ts <> []) by (intros C; rewrite C in Ht; inversion Ht).
      destruct (Tne Hne') as (Hk & Hx1 & Hx2 & _). apply has_val_key in Hx1. apply has_val_key in Hx2.
      assert (Hlmk: avail g' k (raw SymS (t_id t))).
      { destruct (Tid t Ht) as [Hid _]. destruct (Hlm (t_id t) Hid) as (j & kk & A & B & C).
        - apply Hkeys. left. eauto.
        - right. exists (t_id t), j. conj; auto. apply Hmax in C. lia. }
      assert (HX: forall i, 0 <= i < 2 ^ 56 -> i <= k -> avail g' k (raw SymX i)).
      { intros i A B. left. exists SymX, i. conj; auto. apply idx_ok_lim; auto. }
      unfold track_factors in Hin. apply in_app_or in Hin. destruct Hin as [Hin|[<-|[]]].
      * destruct (t_first t); [|inversion Hin]. destruct Hin as [<-|[]]. simpl in Hv. destruct Hv as [<-|[<-|[]]]; [|exact Hlmk].
        apply HX; auto; lia.
      * simpl in Hv. destruct Hv as [<-|[<-|[]]]; [|exact Hlmk]. apply HX; auto; lia.
Qed.

(* ---- optimising ---- *)
Lemma extract_ok o m g : gm_inv g -> ids_ok g -> end_harmless (o_end o) -> idx_ok m = true ->
  exists g' fs vs, igm_extract o m g = (g', Ok (fs, vs)) /\
    (forall c n, idx_ok n = true -> mget (raw c n) vs = if handed m g c n then mget (raw c n) (g_new_val g) else None).
Proof.
  intros Ig Hok (e & Ee & He) Hm. unfold igm_extract. rewrite Ee. destruct (o_values_first o).
  - destruct (extract_values_exact e m g Ig Hok He Hm) as (g' & vs & E & _ & G1 & G2 & _). rewrite E.
    destruct (gm_extract_factors m g') as [g2 f]. exists g2, f, vs. split; [reflexivity|]. auto.
  - pose proof (gm_extract_factors_frame m g) as F. cbv zeta in F.
    pose proof (gm_extract_factors_inv m g Ig) as I1. destruct (gm_extract_factors m g) as [g1 f].
    cbn [fst] in *. destruct F as (_&F1&_&_&_&_&_&_&F2&_).
    assert (Hok1: ids_ok g1) by (unfold ids_ok in *; rewrite F1, F2; exact Hok).
    destruct (extract_values_exact e m g1 I1 Hok1 He Hm) as (g' & vs & E & _ & G1 & G2 & _). rewrite E.
    exists g', f, vs. split; [reflexivity|].
    assert (Hh: forall c n, handed m g1 c n = handed m g c n) by (intros c n; unfold handed; rewrite F2; reflexivity).
    intros c n Hn; rewrite <- Hh, <- F1; auto.
Qed.

Lemma rdy_accepts s o m g1 fs vs : rdy s -> wf_op s (OOptimise o m) ->
  igm_extract o m (i_gm s) = (g1, Ok (fs, vs)) -> update_ok (i_vars s) fs vs = true.
Proof.
  intros R (He & Hs & Hm & Hset) E. apply idx_ok_lim in Hm. pose proof (r_inv _ R) as I. pose proof (inv_gm _ I) as Ig.
  destruct (extract_ok o m (i_gm s) Ig (r_ids _ R) He Hm) as (g1' & fs' & vs' & E' & G). rewrite E in E'. inversion E'; subst g1' fs' vs'. clear E'.
  destruct (igm_extract_spec o m (i_gm s) g1 fs vs Ig E) as (_ & Hfs & _ & Hsub & Svs & _).
  unfold update_ok. apply andb_true_intro. split.
  - apply forallb_forall. intros k Hk. apply negb_true_iff, zmem_false. intros Hv. apply (inv_vars_new _ I k Hv).
    apply some_key in Hk. apply some_key. destruct (mget k vs) as [v|] eqn:Ek; [|congruence]. apply Hsub in Ek. congruence.
  - apply forallb_forall. intros f Hf. apply forallb_forall. intros v Hv.
    rewrite Hfs in Hf. apply In_elems in Hf; [|apply msorted_filter; destruct Ig; auto]. destruct Hf as [k Hf].
    rewrite (mentry_filter (fun x => x <=? m)) in Hf. destruct (Z.leb_spec k m) as [Hkm|]; [|inversion Hf].
    apply orb_true_iff. rewrite zmem_In.
    assert (Hpend: forall c n, idx_ok n = true -> v = raw c n -> In v (mkeys (g_new_val (i_gm s))) -> handed m (i_gm s) c n = true -> mmem v vs = true).
    { intros c n Hn -> Hin Hh. apply mmem_true, some_key. rewrite G, Hh by auto. apply some_key. exact Hin. }
    destruct (r_fac _ R k f v Hf Hv) as [(c & i & A & B & C & D)|(id & j & A & B & C & D)].
    + assert (F: In v (mkeys (g_val (i_gm s)))) by (apply has_val_key; eapply Hset; eauto).
      destruct (r_cover _ R v F) as [H|H]; [auto|]. right. apply (Hpend c i); auto.
      destruct c; try discriminate A; simpl; lia.
    + assert (Hin: In v (mkeys (g_val (i_gm s)))) by (subst v; apply (li_val _ (r_list _ R)); eapply listed_elems; eauto).
      destruct (r_cover _ R v Hin) as [H|H]; [auto|]. right. apply (Hpend SymS id); auto.
      subst v. apply handed_listed; auto; [exact (r_list _ R)|apply some_key; exact H|]. exists j. split; [lia|exact C].
Qed.

Lemma optimise_succeeds s o m : rdy s -> wf_op s (OOptimise o m) ->
  let s' := fst (igm_optimise o m s) in
  (exists fs vs, snd (igm_optimise o m s) = Ok (fs, vs, [])) /\ rdy s' /\ i_opt s' = m.
Proof.
  intros R W. pose proof W as (He & Hs & Hm & _). apply idx_ok_lim in Hm.
  pose proof (r_inv _ R) as I. pose proof (inv_gm _ I) as Ig. cbv zeta.
  destruct (extract_ok o m (i_gm s) Ig (r_ids _ R) He Hm) as (g1 & fs & vs & E & G).
  pose proof (rdy_accepts s o m g1 fs vs R W E) as Hup.
  destruct (igm_optimise_split o m s I) as [(g1' & E' & Q)|[(g1' & E' & Q)|[(g1' & fs' & vs' & E' & A & Q)|(g1' & fs' & vs' & E' & A & Q)]]];
    rewrite E in E'; inversion E'; subst; clear E'.
  { unfold accepted in A. rewrite E, Hup, Hs in A. discriminate. }
  cbv zeta in Q. destruct Q as (_ & I3 & Q). rewrite (r_marg _ R) in Q, I3. simpl andb in Q.
  assert (Hex: exists x, snd (gm_step bp s (OOptimise o m)) = Ok x) by (simpl gm_step; unfold obs in *; rewrite Q; eexists; reflexivity).
  destruct Hex as [x Hx]. assert (NU: snd (gm_step bp s (OOptimise o m)) <> UB) by congruence.
  destruct (fresh_step bp s (OOptimise o m) I (r_ids _ R) (r_feats _ R) He NU) as [F1 F2].
  pose proof (list_inv_step bp s (OOptimise o m) I (r_ids _ R) (r_feats _ R) (r_list _ R) He NU) as F3.
  destruct (non_stereo bp s (OOptimise o m) I) as (E1 & E2 & _); [intros; discriminate|]. destruct (E2 0) as [E3 _]. clear E2.
  destruct (optimise_ids_feat bp o m s I) as (_ & _ & On & Ov).
  destruct (igm_extract_spec o m (i_gm s) g1' fs' vs' Ig E) as (_ & _ & Hnf & Hsub & Svs & Hnv & _).
  simpl gm_step in *. unfold obs in *. rewrite E in On. cbn [fst] in On.
  rewrite Q in *. cbn [fst snd] in *.
  set (s3 := mkIgm _ _ _ _ _ _ _) in *.
  assert (Hnf3: g_new_fac (i_gm s3) = filter (fun e => m <? fst e) (g_new_fac (i_gm s))).
  { rewrite <- Hnf. subst s3. gsimp. apply gm_update_all_frame. }
  split; [eauto|]. split; [|reflexivity]. constructor; auto.
  - intros v Hv. apply Ov in Hv. subst s3. gsimp. destruct (r_cover _ R v Hv) as [H|H].
    + left. apply in_or_app. auto.
    + destruct (mmem v vs') eqn:Em; [left; apply in_or_app; right; apply mmem_true; exact Em|right].
      apply On. apply some_key. rewrite Hnv, mget_del_all, Em by (destruct Ig; auto). apply some_key. exact H.
  - intros id Hid H. apply Ov in H. destruct (r_lm _ R id Hid H) as (j & k & B & C & D). exists j, k.
    rewrite E1. unfold listed. rewrite E3. auto.
  - intros id Hid H. apply Ov in H. rewrite E1. apply (r_src _ R); auto.
  - intros id i a b. rewrite E1. intros H1 H2 H3 H4. apply Ov. apply (r_pairs _ R id i a b); auto.
  - intros k f v Hf Hv. rewrite Hnf3 in Hf. rewrite (mentry_filter (fun x => m <? x)) in Hf. destruct (m <? k); [|inversion Hf].
    apply (avail_mono (i_gm s)).
    + unfold listed. intros. rewrite E3. auto.
    + eapply (r_fac _ R); eauto.
Qed.

(* ---- every well-formed call succeeds ---- *)
Lemma wf_step s op : rdy s -> wf_op s op ->
  (exists x, snd (gm_step bp s op) = Ok x) /\ rdy (fst (gm_step bp s op)).
Proof.
  intros R W. destruct (plain op) eqn:Hp.
  - split; [apply plain_succeeds; auto|].
    destruct op; try (apply rdy_plain; auto; intros; discriminate). apply rdy_stereo; auto.
  - destruct op; try discriminate Hp; [|inversion W].
    destruct (optimise_succeeds s o m R W) as ((fs & vs & H1) & H2 & _). simpl gm_step. split; [eauto|exact H2].
Qed.

Lemma wf_run_rdy ops s : rdy s -> wf_run s ops -> rdy (gm_run bp s ops) /\ Forall (fun r => is_ok r = true) (gm_trace bp s ops).
Proof.
  revert s. induction ops as [|op ops IH]; simpl; intros s R W; [auto|]. destruct W as [W1 W].
  destruct (wf_step s op R W1) as [[x Hx] R']. destruct (IH _ R' W) as [A B]. split; [exact A|].
  constructor; [rewrite Hx; reflexivity|exact B].
Qed.

Lemma well_formed_never_fails ops :
  wf_run igm_init ops -> Forall (fun r => is_ok r = true) (gm_trace bp igm_init ops).
Proof. intros W. apply wf_run_rdy; [apply rdy_init|exact W]. Qed.

Lemma wf_run_app a b s : wf_run s (a ++ b) <-> wf_run s a /\ wf_run (gm_run bp s a) b.
Proof. revert s. induction a as [|op a IH]; simpl; intros s; [tauto|]. rewrite IH. tauto. Qed.
End Ready.
