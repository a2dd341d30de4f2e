(* Values (C01, C02), factors (C03, C04), named keys and timestamps (C07-C09). *)
From Verif Require Import Base GmModel GmSpec GmInv.

(* ---------------- write log ---------------- *)
Lemma apply_writes_app a b m : apply_writes (a ++ b) m = apply_writes b (apply_writes a m).
Proof. unfold apply_writes. apply fold_left_app. Qed.

Lemma mget_apply_writes ws m k :
  mget k (apply_writes ws m) = match last_write k ws with Some v => Some v | None => mget k m end.
Proof.
  revert m. induction ws as [|[k' v] ws IH]; simpl; intros m; [reflexivity|].
  unfold apply_writes in *. rewrite IH. destruct (last_write k ws); [reflexivity|].
  rewrite mget_mput. destruct (k =? k'); reflexivity.
Qed.

Lemma last_write_app k a b :
  last_write k (a ++ b) = match last_write k b with Some v => Some v | None => last_write k a end.
Proof.
  induction a as [|[k' v] a IH]; simpl; [destruct (last_write k b); reflexivity|].
  rewrite IH. destruct (last_write k b); reflexivity.
Qed.

Lemma last_write_None k ws : last_write k ws = None <-> ~ In k (map fst ws).
Proof.
  induction ws as [|[k' v] ws IH]; simpl; [tauto|].
  destruct (last_write k ws) eqn:E.
  - split; [discriminate|]. intros H. exfalso. apply H. right.
    destruct (in_dec Z.eq_dec k (map fst ws)); [auto|]. apply IH in n. discriminate.
  - destruct (Z.eqb_spec k k'); [split; [discriminate|intros H; exfalso; apply H; auto]|].
    split; [|auto]. intros _ [H|H]; [congruence|]. apply IH in H; auto.
Qed.

(* pushes of a list at one key *)
Definition push_all {A} (k : Z) (l : list A) (m : omap (list A)) : omap (list A) :=
  fold_left (fun m x => mpush k x m) l m.

Lemma push_all_app {A} k (a b : list A) m : push_all k (a ++ b) m = push_all k b (push_all k a m).
Proof. apply fold_left_app. Qed.

Lemma mentry_push_all {A} j k (l : list A) m :
  mentry j (push_all k l m) = if j =? k then mentry j m ++ l else mentry j m.
Proof.
  unfold push_all. revert m. induction l as [|x l IH]; simpl; intros m.
  - destruct (j =? k); rewrite ?app_nil_r; reflexivity.
  - rewrite IH, mentry_mpush. destruct (j =? k); [rewrite <- app_assoc; reflexivity|reflexivity].
Qed.

Lemma push_all_sorted {A} k (l : list A) m : msorted m -> msorted (push_all k l m).
Proof. unfold push_all. revert m. induction l; simpl; intros m H; auto using mpush_sorted. Qed.

(* ---------------- stereo: exact effect ---------------- *)
Section Stereo.
Variable bp : Z -> Z -> Z -> Z -> Z.

Record stereo_eff (k : Z) (pose cam kal : Z) (ts : list track) (g g' : gm) : Prop := {
  se_val : g_val g' = apply_writes (map (fun t => (raw SymS (t_id t), bp pose cam kal (t_meas t))) ts) (g_val g);
  se_fac : g_fac g' = push_all k (flat_map (track_factors k) ts) (g_fac g);
  se_nfac : g_new_fac g' = push_all k (flat_map (track_factors k) ts) (g_new_fac g);
  se_ids : g_ids g' = push_all k (map t_id (filter t_first ts)) (g_ids g);
  se_nids : g_new_ids g' = push_all k (map t_id (filter t_first ts)) (g_new_ids g);
  se_keys : g_keys g' = g_keys g; se_ts : g_ts g' = g_ts g; se_calib : g_calib g' = g_calib g;
  se_cam : g_cam g' = g_cam g; se_feat : g_feat g' = g_feat g
}.

Lemma stereo_eff_refl k pose cam kal g : stereo_eff k pose cam kal [] g g.
Proof. constructor; reflexivity. Qed.

Lemma stereo_eff_app k pose cam kal a b g1 g2 g3 :
  stereo_eff k pose cam kal a g1 g2 -> stereo_eff k pose cam kal b g2 g3 -> stereo_eff k pose cam kal (a ++ b) g1 g3.
Proof.
  intros [] []. constructor; try congruence.
  - rewrite map_app, apply_writes_app. congruence.
  - rewrite flat_map_app, push_all_app. congruence.
  - rewrite flat_map_app, push_all_app. congruence.
  - rewrite filter_app, map_app, push_all_app. congruence.
  - rewrite filter_app, map_app, push_all_app. congruence.
Qed.

Definition is_first (im2 : option (omap Z)) (id : Z) : bool :=
  match im2 with Some f => negb (mmem id f) | None => true end.

Lemma stereo_feature_exact k im1 im2 pose cam id meas g kal p :
  gm_inv g -> idx_ok k = true -> g_calib g = Some kal -> mget id im1 = Some p ->
  let t := mkTrack id p meas (is_first im2 id) in
  if track_ok k t
  then exists g', stereo_feature bp k im1 im2 pose cam id meas g = (g', Ok tt) /\ stereo_eff k pose cam kal [t] g g'
  else stereo_feature bp k im1 im2 pose cam id meas g = (g, Throw).
Proof.
  intros I Hk Hc Hp. cbv zeta. unfold track_ok, stereo_feature, stereo_first, is_first. rewrite Hp. cbn [t_id t_first].
  set (fst_ := match im2 with Some f => negb (mmem id f) | None => true end).
  assert (Heq: match im2 with Some f => negb (mmem id f) | None => true end = fst_) by reflexivity.
  assert (Heq2: match im2 with None => true | Some f => negb (mmem id f) end = fst_) by reflexivity.
  rewrite ?Heq, ?Heq2. clearbody fst_. clear Heq Heq2.
  unfold sym_keys, sym_key. rewrite Hk. destruct fst_; simpl negb; rewrite ?orb_false_l, ?orb_true_l.
  - destruct (idx_ok (k - 1)) eqn:Hk1; destruct (idx_ok id) eqn:Hid; simpl andb; cbn [rbind]; try reflexivity.
    set (g1 := with_ids _ _ _).
    assert (I1: gm_inv g1).
    { pose proof (gm_add_factor_inv k (mkFactor FStereo [raw SymX (k - 1); raw SymS id] p) g I) as I1.
      apply with_ids_inv; auto; apply mpush_sorted; destruct I1; auto. }
    replace (g_calib g1) with (Some kal) by (subst g1; symmetry; exact Hc).
    destruct (gm_set_val SymS id (bp pose cam kal meas) g1 I1) as [Ev Er].
    pose proof (gm_set_frame SymS id (bp pose cam kal meas) g1 I1) as F. cbv zeta in F.
    destruct (gm_set SymS id (bp pose cam kal meas) g1) as [g2 r]. cbn [fst snd] in *. rewrite Hid in Ev, Er. subst r.
    destruct F as (F1 & F2 & F3 & F4 & F5 & F6 & F7 & F8 & F9).
    eexists; split; [reflexivity|].
    constructor; unfold gm_add_factor; gsimp; simpl map; simpl flat_map; simpl filter; cbn [apply_writes push_all fold_left t_id t_meas fst snd];
      rewrite ?Ev, ?F1, ?F2, ?F3, ?F4, ?F5, ?F6, ?F7, ?F8, ?F9; subst g1; unfold gm_add_factor; gsimp; reflexivity.
  - destruct (idx_ok id) eqn:Hid; simpl andb; cbn [rbind].
    + rewrite Hc.
      destruct (gm_set_val SymS id (bp pose cam kal meas) g I) as [Ev Er].
      pose proof (gm_set_frame SymS id (bp pose cam kal meas) g I) as F. cbv zeta in F.
      destruct (gm_set SymS id (bp pose cam kal meas) g) as [g2 r]. cbn [fst snd] in *. rewrite Hid in Ev, Er. subst r.
      destruct F as (F1 & F2 & F3 & F4 & F5 & F6 & F7 & F8 & F9).
      eexists; split; [reflexivity|].
      constructor; unfold gm_add_factor; gsimp; simpl map; simpl flat_map; simpl filter; cbn [apply_writes push_all fold_left t_id t_meas fst snd];
        rewrite ?Ev, ?F1, ?F2, ?F3, ?F4, ?F5, ?F6, ?F7, ?F8, ?F9; reflexivity.
    + rewrite Hc. unfold gm_set, sym_key. rewrite Hid. reflexivity.
Qed.

Lemma stereo_loop_exact k im1 im2 pose cam fi g kal :
  gm_inv g -> idx_ok k = true -> g_calib g = Some kal ->
  let ts := tracks_of fi im1 im2 in
  exists g', stereo_features_loop bp k im1 im2 pose cam fi g = (g', if forallb (track_ok k) ts then Ok tt else Throw) /\
    stereo_eff k pose cam kal (take_while (track_ok k) ts) g g'.
Proof.
  intros I Hk. cbv zeta. revert g I. induction fi as [|[id meas] fi IH]; intros g I Hc.
  - exists g. split; [reflexivity|apply stereo_eff_refl].
  - simpl. destruct (mget id im1) as [p|] eqn:Hp.
    + pose proof (stereo_feature_exact k im1 im2 pose cam id meas g kal p I Hk Hc Hp) as E. cbv zeta in E.
      unfold is_first in E. simpl app.
      destruct (track_ok k (mkTrack id p meas match im2 with Some f => negb (mmem id f) | None => true end)) eqn:Ht.
      * destruct E as (g1 & E & Hse). pose proof (stereo_feature_inv bp k im1 im2 pose cam id meas g I) as I1.
        rewrite E in *. cbn [fst] in I1.
        destruct (IH g1 I1) as (g2 & E2 & Hse2). { rewrite (se_calib _ _ _ _ _ _ _ Hse). exact Hc. }
        exists g2. simpl. rewrite Ht, E2. split; [reflexivity|].
        match goal with |- stereo_eff _ _ _ _ (?x :: ?l) _ _ => change (x :: l) with ([x] ++ l) end.
        eapply stereo_eff_app; eauto.
      * rewrite E. exists g. simpl. rewrite Ht. split; [reflexivity|apply stereo_eff_refl].
    + unfold stereo_feature. rewrite Hp. simpl. apply IH; auto.
Qed.

Lemma stereo_loop_no_calib k im1 im2 pose cam fi g :
  g_calib g = None -> tracks_of fi im1 im2 = [] \/
  snd (stereo_features_loop bp k im1 im2 pose cam fi g) <> Ok tt.
Proof.
  intros Hc. induction fi as [|[id meas] fi IH]; [left; reflexivity|].
  simpl. unfold stereo_feature at 1. destruct (mget id im1) as [p|] eqn:Hp; [|simpl; exact IH].
  right. unfold stereo_first. set (b := match im2 with None => true | Some f => negb (mmem id f) end). destruct b.
  - destruct (sym_keys [(SymX, k - 1); (SymS, id)]); try (simpl; discriminate).
    unfold gm_add_factor. gsimp. rewrite Hc. simpl. discriminate.
  - rewrite Hc. simpl. discriminate.
Qed.

(* without calibration: nothing registered, or UB *)
Lemma stereo_loop_no_calib_exact k im1 im2 pose cam fi g :
  gm_inv g -> idx_ok k = true -> g_calib g = None ->
  snd (stereo_features_loop bp k im1 im2 pose cam fi g) = UB \/
  (exists r, stereo_features_loop bp k im1 im2 pose cam fi g = (g, r) /\
             take_while (track_ok k) (tracks_of fi im1 im2) = [] /\ (r = Ok tt <-> tracks_of fi im1 im2 = [])).
Proof.
  intros I Hk Hc. induction fi as [|[id meas] fi IH].
  - right. exists (Ok tt). repeat split; auto.
  - simpl. unfold stereo_feature at 1 2. destruct (mget id im1) as [p|] eqn:Hp.
    + unfold stereo_first. simpl app.
      set (b := match im2 with None => true | Some f => negb (mmem id f) end).
      change (match im2 with Some f => negb (mmem id f) | None => true end) with b.
      unfold sym_keys, sym_key. cbn [take_while]. unfold track_ok. cbn [t_id t_first]. destruct b; simpl negb; rewrite ?orb_false_l, ?orb_true_l.
      * destruct (idx_ok (k - 1)), (idx_ok id); cbn [rbind andb].
        -- left. unfold gm_add_factor. gsimp. rewrite Hc. reflexivity.
        -- right. exists Throw. repeat split; auto; discriminate.
        -- right. exists Throw. repeat split; auto; discriminate.
        -- right. exists Throw. repeat split; auto; discriminate.
      * rewrite Hc. left; reflexivity.
    + simpl. exact IH.
Qed.

(* effect of one public stereo call *)
Lemma gm_create_stereo_exact k f g :
  gm_inv g ->
  let ts := stereo_done k f g in
  let g' := fst (gm_create_stereo bp k f g) in
  snd (gm_create_stereo bp k f g) <> UB ->
  g_val g' = apply_writes (stereo_writes bp k f g) (g_val g) /\
  (forall j, mentry j (g_fac g') = mentry j (push_all k (flat_map (track_factors k) ts) (g_fac g))) /\
  (forall j, mentry j (g_new_fac g') = mentry j (push_all k (flat_map (track_factors k) ts) (g_new_fac g))) /\
  (forall j, mentry j (g_ids g') = mentry j (push_all k (map t_id (filter t_first ts)) (g_ids g))) /\
  (forall j, mentry j (g_new_ids g') = mentry j (push_all k (map t_id (filter t_first ts)) (g_new_ids g))) /\
  g_keys g' = g_keys g /\ g_ts g' = g_ts g /\ g_calib g' = g_calib g /\ g_cam g' = g_cam g /\
  g_feat g' = (if mmem k (g_feat g) then g_feat g else mput k f (g_feat g)).
Proof.
  intros I. cbv zeta. unfold gm_create_stereo, stereo_done, stereo_writes, stereo_done.
  destruct (mmem k (g_feat g)) eqn:Hm.
  { cbn [fst snd]. intros _. conj; auto. destruct (mget _ _), (g_cam g), (g_calib g); reflexivity. }
  set (g1 := with_feat _ g). set (g2 := with_fac _ _ g1).
  assert (I2: gm_inv g2).
  { subst g2 g1. pose proof I as I'. destruct I'. apply with_fac_inv; gsimp; auto using mtouch_sorted.
    apply with_feat_inv; auto using msorted_mput. }
  assert (Hfeat: g_feat g2 = mput k f (g_feat g)) by reflexivity.
  assert (Hval: g_val g2 = g_val g) by reflexivity.
  assert (Base: forall P : list track,  P = [] ->
    g_val g2 = apply_writes (match mget (raw SymX k) (g_val g), g_cam g, g_calib g with
      | Some p, Some c, Some kal => map (fun t => (raw SymS (t_id t), bp p c kal (t_meas t))) P
      | _, _, _ => [] end) (g_val g) /\
    (forall j, mentry j (g_fac g2) = mentry j (push_all k (flat_map (track_factors k) P) (g_fac g))) /\
    (forall j, mentry j (g_new_fac g2) = mentry j (push_all k (flat_map (track_factors k) P) (g_new_fac g))) /\
    (forall j, mentry j (g_ids g2) = mentry j (push_all k (map t_id (filter t_first P)) (g_ids g))) /\
    (forall j, mentry j (g_new_ids g2) = mentry j (push_all k (map t_id (filter t_first P)) (g_new_ids g))) /\
    g_keys g2 = g_keys g /\ g_ts g2 = g_ts g /\ g_calib g2 = g_calib g /\ g_cam g2 = g_cam g /\
    g_feat g2 = mput k f (g_feat g)).
  { intros P ->. subst g2 g1. gsimp. conj; try reflexivity.
    - destruct (mget _ _), (g_cam g), (g_calib g); reflexivity.
    - intros j. rewrite mentry_mtouch. reflexivity.
    - intros j. rewrite mentry_mtouch. reflexivity. }
  rewrite <- Hfeat. destruct (rev (g_feat g2)) as [|[k1 fi] [|[k2 im1] rest]] eqn:Hrev; cbn [fst snd];
    try (intros _; rewrite Hfeat in *; apply Base; reflexivity).
  unfold gm_has, gm_get, sym_key. destruct (idx_ok k) eqn:Hk; cbn [fst snd];
    [|intros _; rewrite Hfeat in *; apply Base; reflexivity].
  unfold mmem. rewrite Hval. destruct (mget (raw SymX k) (g_val g)) as [pose|] eqn:Hp; cbn [fst snd];
    [|intros _; rewrite Hfeat in *; apply Base; reflexivity].
  assert (Hcam: g_cam g2 = g_cam g) by reflexivity. rewrite Hcam.
  destruct (g_cam g) as [cam|] eqn:Hcm; cbn [fst snd];
    [|intros _; rewrite Hfeat in *; apply Base; reflexivity].
  set (im2 := match rest with [] => None | (_, f2) :: _ => Some f2 end).
  set (g3 := with_ids _ _ g2).
  assert (I3: gm_inv g3).
  { subst g3. pose proof I2 as I3. destruct I3. apply with_ids_inv; auto using mtouch_sorted. }
  intros NU. destruct (g_calib g) as [kal|] eqn:Hcal.
  - destruct (stereo_loop_exact k im1 im2 pose cam fi g3 kal I3 Hk Hcal) as (g4 & E & Hse).
    rewrite E. cbn [fst]. clear NU E. destruct Hse. rewrite se_val0, se_fac0, se_nfac0, se_ids0, se_nids0.
    rewrite se_keys0, se_ts0, se_calib0, se_cam0, se_feat0.
    conj; try reflexivity; try assumption;
      intros j; rewrite !mentry_push_all; subst g3 g2 g1; gsimp; rewrite mentry_mtouch; reflexivity.
  - destruct (stereo_loop_no_calib_exact k im1 im2 pose cam fi g3 I3 Hk Hcal) as [Hub|(r & E & Ht & _)];
      [contradiction|].
    rewrite E. cbn [fst]. rewrite Ht. simpl. subst g3 g2 g1. gsimp. conj; try reflexivity; try assumption;
      intros j; rewrite mentry_mtouch; reflexivity.
Qed.
End Stereo.

(* ---------------- optimise: exact effect ---------------- *)
Lemma igm_marginalise_frame o k s :
  let s' := fst (igm_marginalise o k s) in
  g_val (i_gm s') = g_val (i_gm s) /\ g_new_val (i_gm s') = g_new_val (i_gm s) /\
  g_fac (i_gm s') = g_fac (i_gm s) /\ g_new_fac (i_gm s') = g_new_fac (i_gm s) /\
  g_keys (i_gm s') = g_keys (i_gm s) /\ g_ts (i_gm s') = g_ts (i_gm s) /\
  g_feat (i_gm s') = g_feat (i_gm s) /\ g_ids (i_gm s') = g_ids (i_gm s) /\
  g_new_ids (i_gm s') = g_new_ids (i_gm s) /\ i_facs s' = i_facs s /\ i_opt s' = i_opt s.
Proof.
  cbv zeta. unfold igm_marginalise, gm_extract_unm. destruct (i_opt s <? k); [conj; reflexivity|].
  destruct (take_upto k (g_unm (i_gm s))) as [out rest].
  destruct (forallb _ out && o_leaves o); cbn [fst]; conj; reflexivity.
Qed.

Lemma igm_optimise_split o m s :
  igm_inv s ->
  (exists g1, igm_extract o m (i_gm s) = (g1, Throw) /\ igm_optimise o m s = (with_gm g1 s, Throw)) \/
  (exists g1, igm_extract o m (i_gm s) = (g1, UB) /\ igm_optimise o m s = (with_gm g1 s, UB)) \/
  (exists g1 fs vs, igm_extract o m (i_gm s) = (g1, Ok (fs, vs)) /\ accepted o m s = false /\
                    igm_optimise o m s = (with_gm g1 s, Throw)) \/
  (exists g1 fs vs, igm_extract o m (i_gm s) = (g1, Ok (fs, vs)) /\ accepted o m s = true /\
     let g2 := fst (gm_update_all (estimate o (i_vars s ++ mkeys vs)) g1) in
     let s3 := mkIgm g2 (i_vars s ++ mkeys vs) (i_facs s ++ fs) m (i_marg_on s) (i_marg_key s) (i_window s) in
     g_val g2 = apply_writes (estimates o m s) (g_val g1) /\ igm_inv s3 /\
     igm_optimise o m s =
       if i_marg_on s && (i_marg_key s <=? m - i_window s)
       then (fst (igm_marginalise o (m - i_window s) s3),
             match snd (igm_marginalise o (m - i_window s) s3) with Ok ks => Ok (fs, vs, ks) | Throw => Throw | UB => UB end)
       else (s3, Ok (fs, vs, []))).
Proof.
  intros I. unfold igm_optimise, accepted, estimates.
  destruct (igm_extract o m (i_gm s)) as [g1 [[fs vs]| |]] eqn:E.
  - right; right. destruct (update_ok (i_vars s) fs vs && o_solve o).
    + right. exists g1, fs, vs. split; [reflexivity|]. split; [reflexivity|]. cbv zeta.
      pose proof (accepted_inv o m s g1 fs vs I E) as I2.
      set (s2 := mkIgm g1 (i_vars s ++ mkeys vs) (i_facs s ++ fs) m (i_marg_on s) (i_marg_key s) (i_window s)) in *.
      change (i_vars s2) with (i_vars s ++ mkeys vs).
      destruct (gm_update_all_ok (estimate o (i_vars s ++ mkeys vs)) g1) as [U1 U2].
      { intros k Hk. apply mkeys_estimate in Hk. apply (inv_vars_val _ I2). exact Hk. }
      { destruct (inv_gm _ I2); auto. }
      pose proof (gm_update_all_inv (estimate o (i_vars s2)) g1 (inv_gm _ I2)) as I3.
      pose proof (gm_update_all_frame (estimate o (i_vars s2)) g1) as F3. cbv zeta in F3.
      assert (I4: igm_inv (with_gm (fst (gm_update_all (estimate o (i_vars s2)) g1)) s2)).
      { destruct F3 as (_&_&_&_&_&_&_&_&_&_&Hn&Hv). constructor.
        - exact I3.
        - intros k Hk. apply Hv. apply (inv_vars_val _ I2); auto.
        - intros k Hk Hc. apply Hn in Hc. apply (inv_vars_new _ I2 k); auto.
        - apply (inv_vars_nodup _ I2). }
      change (i_vars s2) with (i_vars s ++ mkeys vs) in *.
      split; [exact U2|]. split; [exact I4|].
      destruct (gm_update_all (estimate o (i_vars s ++ mkeys vs)) g1) as [g2 r]. cbn [fst snd] in *. subst r.
      destruct (i_marg_on s && (i_marg_key s <=? m - i_window s)); [|reflexivity].
      unfold s2. unfold with_gm. cbn [i_vars i_facs i_opt i_marg_on i_marg_key i_window].
      destruct (igm_marginalise o (m - i_window s) _) as [s4 [ks| |]]; reflexivity.
    + left. exists g1, fs, vs. repeat split; reflexivity.
  - left. exists g1. split; reflexivity.
  - right; left. exists g1. split; reflexivity.
Qed.

Lemma gm_create_frame kind k vars meas g :
  let g' := fst (gm_create kind k vars meas g) in
  g_val g' = g_val g /\ g_new_val g' = g_new_val g /\ g_keys g' = g_keys g /\ g_ts g' = g_ts g /\
  g_unm g' = g_unm g /\ g_ids g' = g_ids g /\ g_new_ids g' = g_new_ids g /\ g_feat g' = g_feat g.
Proof. cbv zeta. unfold gm_create. destruct (sym_keys vars); conj; reflexivity. Qed.

Section Run.
Variable bp : Z -> Z -> Z -> Z -> Z.

(* observation is not undefined behaviour *)
Definition no_ub (t : list obs) : Prop := forall o, In o t -> o <> UB.

Lemma step_writes s op :
  igm_inv s -> snd (gm_step bp s op) <> UB ->
  g_val (i_gm (fst (gm_step bp s op))) = apply_writes (writes bp s op) (g_val (i_gm s)).
Proof.
  intros I NU. pose proof (inv_gm _ I) as Ig.
  assert (Hset: forall c k v, g_val (i_gm (fst (lift s (gm_set c k v (i_gm s))))) =
     apply_writes (if idx_ok k then [(raw c k, v)] else []) (g_val (i_gm s))).
  { intros c k v. unfold lift. gsimp. destruct (gm_set_val c k v (i_gm s) Ig) as [E _]. rewrite E.
    destruct (idx_ok k); reflexivity. }
  destruct op; simpl gm_step; simpl writes; auto; try reflexivity.
  - (* navstate *) unfold lift, gm_set_navstate. gsimp.
    destruct (gm_set_val SymX k p (i_gm s) Ig) as [E1 R1].
    pose proof (gm_set_inv SymX k p (i_gm s) Ig) as I1.
    destruct (gm_set SymX k p (i_gm s)) as [g1 r1]. gsimp. subst r1. destruct (idx_ok k) eqn:Hk.
    + destruct (gm_set_val SymV k v g1 I1) as [E2 R2]. rewrite E2, E1, Hk. reflexivity.
    + cbn. rewrite E1. reflexivity.
  - unfold lift, gm_increment. destruct (sget name (g_keys (i_gm s))) as [[? ?]|]; reflexivity.
  - unfold lift, gm_set_timestamp. destruct (0 <=? k); reflexivity.
  - destruct kind; try reflexivity; apply gm_create_frame.
  - unfold lift in *. gsimp. simpl in NU. destruct (gm_create_stereo_exact bp k features (i_gm s) Ig) as [E _]; [|exact E].
    destruct (snd (gm_create_stereo bp k features (i_gm s))); simpl in NU; congruence.
  - unfold lift. gsimp. apply gm_update_all_writes; auto.
  - pose proof (igm_extract_frame o m (i_gm s) Ig) as F. cbv zeta in F.
    destruct (igm_optimise_split o m s I) as [(g1 & E & R)|[(g1 & E & R)|[(g1 & fs & vs & E & A & R)|(g1 & fs & vs & E & A & H)]]].
    + rewrite R. unfold accepted. rewrite E in *. gsimp. apply F.
    + rewrite R. unfold accepted. rewrite E in *. gsimp. apply F.
    + rewrite R, A. rewrite E in *. gsimp. apply F.
    + cbv zeta in H. destruct H as (Hv & I3 & R). rewrite R, A. rewrite E in F. cbn [fst] in F.
      destruct F as (_ & F & _).
      destruct (i_marg_on s && (i_marg_key s <=? m - i_window s)); cbn [fst].
      * destruct (igm_marginalise_frame o (m - i_window s)
          (mkIgm (fst (gm_update_all (estimate o (i_vars s ++ mkeys vs)) g1)) (i_vars s ++ mkeys vs) (i_facs s ++ fs) m (i_marg_on s) (i_marg_key s) (i_window s))) as [M _].
        rewrite M. gsimp. rewrite Hv, F. reflexivity.
      * gsimp. rewrite Hv, F. reflexivity.
  - destruct (igm_marginalise_frame o k s) as [M _].
    destruct (igm_marginalise o k s) as [s' [ks| |]]; cbn [fst] in *; exact M.
Qed.

Lemma run_writes_val ops s :
  igm_inv s -> no_ub (gm_trace bp s ops) ->
  g_val (i_gm (gm_run bp s ops)) = apply_writes (run_writes bp s ops) (g_val (i_gm s)).
Proof.
  revert s. induction ops as [|op ops IH]; simpl; intros s I NU; [reflexivity|].
  rewrite IH; [|apply gm_step_inv; auto|intros o Ho; apply NU; right; exact Ho].
  rewrite apply_writes_app, step_writes; auto. apply NU. left. reflexivity.
Qed.

(* C01 *)
Lemma values_are_last_writes ops c k :
  no_ub (gm_trace bp igm_init ops) ->
  gm_get c k (i_gm (gm_run bp igm_init ops)) =
  if idx_ok k then
    match last_write (raw c k) (run_writes bp igm_init ops) with Some v => Ok v | None => Throw end
  else Throw.
Proof.
  intros NU. unfold gm_get, sym_key. destruct (idx_ok k); [|reflexivity].
  rewrite run_writes_val by (auto using igm_init_inv). rewrite mget_apply_writes. simpl.
  destruct (last_write _ _); reflexivity.
Qed.

Lemma values_frame ops op c k :
  no_ub (gm_trace bp igm_init (ops ++ [op])) ->
  let s := gm_run bp igm_init ops in
  (forall v, ~ In (raw c k, v) (writes bp s op)) ->
  gm_get c k (i_gm (gm_run bp igm_init (ops ++ [op]))) = gm_get c k (i_gm s).
Proof.
  intros NU s H. rewrite gm_run_app. simpl. fold s.
  assert (I: igm_inv s) by (apply gm_run_inv, igm_init_inv).
  unfold gm_get, sym_key. destruct (idx_ok k); [|reflexivity].
  rewrite step_writes; auto.
  - rewrite mget_apply_writes. assert (last_write (raw c k) (writes bp s op) = None) as ->; [|reflexivity].
    apply last_write_None. intros Hin. apply in_map_iff in Hin. destruct Hin as ([k' v] & E & Hin).
    simpl in E; subst. apply (H v). exact Hin.
  - apply NU. clear - s. subst s. generalize igm_init. induction ops as [|o ops IH]; simpl; intros s0; auto.
Qed.

(* C02 *)
Lemma pending_agrees ops rk v :
  let g := i_gm (gm_run bp igm_init ops) in
  mget rk (g_new_val g) = Some v -> mget rk (g_val g) = Some v.
Proof. intros g. apply (inv_sub _ (inv_gm _ (gm_run_inv bp ops _ igm_init_inv))). Qed.

Lemma gm_step_grows s op : igm_inv s -> grows (i_gm s) (i_gm (fst (gm_step bp s op))).
Proof.
  intros I. pose proof (inv_gm _ I) as Ig.
  assert (Hset: forall c k v, grows (i_gm s) (i_gm (fst (lift s (gm_set c k v (i_gm s)))))).
  { intros c k v. unfold lift. gsimp. apply gm_set_grows; auto. }
  assert (Same: forall g', g_val g' = g_val (i_gm s) -> g_new_val g' = g_new_val (i_gm s) -> grows (i_gm s) g').
  { intros; apply grows_same; auto. }
  destruct op; simpl gm_step; auto; try (apply Same; reflexivity).
  - unfold lift, gm_set_navstate. gsimp.
    pose proof (gm_set_inv SymX k p _ Ig) as I0. pose proof (gm_set_grows SymX k p _ Ig) as G0.
    destruct (gm_set SymX k p (i_gm s)) as [g1 [u| |]]; cbn [fst] in *; auto.
    pose proof (gm_set_grows SymV k v _ I0) as G1. eapply grows_trans; eauto.
  - unfold lift, gm_increment. destruct (sget name (g_keys (i_gm s))) as [[? ?]|]; apply Same; reflexivity.
  - unfold lift, gm_set_timestamp. destruct (0 <=? k); apply Same; reflexivity.
  - destruct kind; try (apply Same; reflexivity); apply Same; apply gm_create_frame.
  - unfold lift. gsimp. apply gm_create_stereo_grows; auto.
  - unfold lift. gsimp. destruct (gm_update_all_frame l (i_gm s)) as (_&_&_&_&_&_&_&_&_&_&Hn&Hv).
    constructor; intros x Hx; [apply Hv; auto|rewrite Hn; auto].
  - pose proof (igm_extract_frame o m (i_gm s) Ig) as F. cbv zeta in F.
    assert (G1: forall g1 r, igm_extract o m (i_gm s) = (g1, r) -> grows (i_gm s) g1).
    { intros g1 r E. rewrite E in F. cbn [fst] in F. destruct F as (_ & Ev & _ & _ & _ & _ & Hn).
      constructor; [rewrite Ev; auto|]. intros x Hx Hx2 Hx3. apply Hx2. auto. }
    destruct (igm_optimise_split o m s I) as [(g1 & E & R)|[(g1 & E & R)|[(g1 & fs & vs & E & A & R)|(g1 & fs & vs & E & A & H)]]];
      try (rewrite R; cbn [fst]; gsimp; eapply G1; exact E).
    cbv zeta in H. destruct H as (Hv & I3 & R). rewrite R. apply G1 in E.
    assert (G2: grows (i_gm s) (fst (gm_update_all (estimate o (i_vars s ++ mkeys vs)) g1))).
    { eapply grows_trans; [exact E|].
      destruct (gm_update_all_frame (estimate o (i_vars s ++ mkeys vs)) g1) as (_&_&_&_&_&_&_&_&_&_&Hn&Hv2).
      constructor; intros x Hx; [apply Hv2; auto|rewrite Hn; auto]. }
    destruct (i_marg_on s && (i_marg_key s <=? m - i_window s)); cbn [fst]; [|exact G2].
    eapply grows_trans; [exact G2|]. destruct (igm_marginalise_frame o (m - i_window s)
          (mkIgm (fst (gm_update_all (estimate o (i_vars s ++ mkeys vs)) g1)) (i_vars s ++ mkeys vs) (i_facs s ++ fs) m (i_marg_on s) (i_marg_key s) (i_window s))) as (M1 & M2 & _).
    apply grows_same; auto.
  - destruct (igm_marginalise_frame o k s) as (M1 & M2 & _).
    destruct (igm_marginalise o k s) as [s' [ks| |]]; cbn [fst] in *; apply grows_same; auto.
Qed.

Lemma gm_run_grows ops s : igm_inv s -> grows (i_gm s) (i_gm (gm_run bp s ops)).
Proof.
  revert s. induction ops as [|op ops IH]; simpl; intros s I; [apply grows_refl|].
  eapply grows_trans; [apply gm_step_grows; auto|]. apply IH. apply gm_step_inv; auto.
Qed.

(* handed over: appeared in the values given to the optimiser *)
Lemma optimise_ok_extract o m s s' fs vs ks :
  igm_inv s -> igm_optimise o m s = (s', Ok (fs, vs, ks)) ->
  exists g1, igm_extract o m (i_gm s) = (g1, Ok (fs, vs)) /\ accepted o m s = true.
Proof.
  intros I H. destruct (igm_optimise_split o m s I) as [(g1 & E & R)|[(g1 & E & R)|[(g1 & fs' & vs' & E & A & R)|(g1 & fs' & vs' & E & A & R)]]];
    try (rewrite R in H; discriminate).
  cbv zeta in R. destruct R as (_ & _ & R). rewrite R in H.
  exists g1. split; [|exact A]. destruct (i_marg_on s && (i_marg_key s <=? m - i_window s)).
  - destruct (snd (igm_marginalise _ _ _)); inversion H; subst; auto.
  - inversion H; subst; auto.
Qed.

Lemma handed_values_current ops o m fs vs ks s' :
  let s := gm_run bp igm_init ops in
  gm_step bp s (OOptimise o m) = (s', Ok (fs, vs, ks)) ->
  forall rk v, mget rk vs = Some v ->
    mget rk (g_val (i_gm s)) = Some v /\
    (forall ops', ~ In rk (mkeys (g_new_val (i_gm (gm_run bp s' ops'))))).
Proof.
  intros s H rk v Hv. assert (I: igm_inv s) by (apply gm_run_inv, igm_init_inv).
  simpl in H. pose proof H as H0. apply optimise_ok_extract in H; auto. destruct H as (g1 & E & A).
  pose proof E as E'. apply igm_extract_spec in E; [|apply inv_gm; auto].
  destruct E as (I1 & Ef & Enf & Hsub & Hvs & Env & Ev & Eu & Efa & Ek & Et).
  apply Hsub in Hv as Hn. apply (inv_sub _ (inv_gm _ I)) in Hn as Hg. split; [exact Hg|].
  intros ops'.
  assert (I': igm_inv s') by (pose proof (igm_optimise_inv o m s I) as X; rewrite H0 in X; exact X).
  pose proof (gm_run_grows ops' s' I') as [_ G]. apply G.
  - pose proof (gm_step_grows s (OOptimise o m) I) as [G1 _]. simpl in G1. rewrite H0 in G1. apply G1.
    eapply mget_key_In; eauto.
  - (* not pending right after *)
    destruct (igm_optimise_split o m s I) as [(g2 & E2 & R)|[(g2 & E2 & R)|[(g2 & fs' & vs' & E2 & A2 & R)|(g2 & fs' & vs' & E2 & A2 & R)]]];
      try (rewrite R in H0; discriminate).
    rewrite E' in E2. inversion E2; subst g2 fs' vs'. clear E2. cbv zeta in R. destruct R as (_ & I3 & R).
    assert (Hs': g_new_val (i_gm s') = g_new_val (fst (gm_update_all (estimate o (i_vars s ++ mkeys vs)) g1))).
    { rewrite R in H0. destruct (i_marg_on s && (i_marg_key s <=? m - i_window s)).
      - inversion H0 as [[Hs Hr]]. apply igm_marginalise_frame.
      - inversion H0; reflexivity. }
    rewrite Hs'. apply (inv_vars_new _ I3). gsimp. apply in_or_app. right.
    eapply mget_key_In; eauto.
Qed.
End Run.
