(* Factor log: conservation, order, range queries (C03, C04). *)
From Verif Require Import Base GmModel GmSpec GmInv GmProofs.

(* ---------------- keyed lists ---------------- *)
Fixpoint ksorted {A} (l : list (Z * A)) : Prop :=
  match l with [] => True | e :: l' => (forall e', In e' l' -> fst e <= fst e') /\ ksorted l' end.

Lemma at_key_app {A} k (a b : list (Z * A)) : at_key k (a ++ b) = at_key k a ++ at_key k b.
Proof. unfold at_key. rewrite filter_app, map_app. reflexivity. Qed.

Lemma at_key_cons {A} k (e : Z * A) l : at_key k (e :: l) = (if fst e =? k then [snd e] else []) ++ at_key k l.
Proof. unfold at_key. simpl. destruct (fst e =? k); reflexivity. Qed.

Lemma at_key_In {A} k (a : A) l : In a (at_key k l) <-> In (k, a) l.
Proof.
  unfold at_key. rewrite in_map_iff. split.
  - intros ([k' a'] & E & H). apply filter_In in H. simpl in *. subst. destruct H as [H E].
    apply Z.eqb_eq in E. subst. exact H.
  - intros H. exists (k, a). split; [reflexivity|]. apply filter_In. split; [exact H|]. simpl. apply Z.eqb_refl.
Qed.

Lemma ksorted_ext {A} (l1 l2 : list (Z * A)) :
  ksorted l1 -> ksorted l2 -> (forall k, at_key k l1 = at_key k l2) -> l1 = l2.
Proof.
  revert l2. induction l1 as [|[k a] l1 IH]; intros l2 S1 S2 H.
  - destruct l2 as [|[k' a'] l2]; [reflexivity|]. specialize (H k'). rewrite at_key_cons in H. simpl in H.
    rewrite Z.eqb_refl in H. discriminate.
  - destruct l2 as [|[k' a'] l2].
    + specialize (H k). rewrite at_key_cons in H. simpl in H. rewrite Z.eqb_refl in H. discriminate.
    + destruct S1 as [L1 S1], S2 as [L2 S2].
      assert (Hk: k = k').
      { assert (In (k, a) ((k', a') :: l2)) as H1.
        { apply at_key_In. rewrite <- H. apply at_key_In. left; reflexivity. }
        assert (In (k', a') ((k, a) :: l1)) as H2.
        { apply at_key_In. rewrite H. apply at_key_In. left; reflexivity. }
        destruct H1 as [H1|H1]; [congruence|]. destruct H2 as [H2|H2]; [congruence|].
        apply L2 in H1. apply L1 in H2. simpl in *. lia. }
      subst k'. assert (Ha: a = a').
      { specialize (H k). rewrite !at_key_cons in H. simpl in H. rewrite Z.eqb_refl in H. inversion H; auto. }
      subst a'. f_equal. apply IH; auto. intros j. specialize (H j). rewrite !at_key_cons in H. simpl in H.
      apply app_inv_head in H. exact H.
Qed.

Lemma insert_key_In {A} (e x : Z * A) l : In x (insert_key e l) <-> x = e \/ In x l.
Proof.
  induction l as [|e' l IH]; simpl; [intuition|].
  destruct (fst e <=? fst e'); simpl; [intuition|]. rewrite IH. intuition.
Qed.

Lemma insert_key_sorted {A} (e : Z * A) l : ksorted l -> ksorted (insert_key e l).
Proof.
  induction l as [|e' l IH]; simpl; intros S; [split; [intros ? []|exact I]|].
  destruct S as [L S]. destruct (Z.leb_spec (fst e) (fst e')) as [H|H]; simpl.
  - split; [|split; auto]. intros x [<-|Hx]; [exact H|]. specialize (L x Hx). lia.
  - split; [|auto]. intros x Hx. apply insert_key_In in Hx. destruct Hx as [->|Hx]; [lia|auto].
Qed.

Lemma sort_key_sorted {A} (l : list (Z * A)) : ksorted (sort_key l).
Proof. induction l; simpl; [exact I|apply insert_key_sorted; auto]. Qed.

Lemma insert_key_at {A} k (e : Z * A) l : at_key k (insert_key e l) = at_key k (e :: l).
Proof.
  induction l as [|e' l IH]; simpl; [reflexivity|].
  destruct (Z.leb_spec (fst e) (fst e')) as [H|H]; [reflexivity|].
  rewrite at_key_cons, IH, !at_key_cons. 
  destruct (Z.eqb_spec (fst e') k), (Z.eqb_spec (fst e) k); try reflexivity. lia.
Qed.

Lemma sort_key_at {A} k (l : list (Z * A)) : at_key k (sort_key l) = at_key k l.
Proof. induction l; simpl; [reflexivity|]. rewrite insert_key_at, !at_key_cons. congruence. Qed.

Lemma insert_key_perm {A} (e : Z * A) l : Permutation (insert_key e l) (e :: l).
Proof.
  induction l as [|e' l IH]; simpl; [auto|]. destruct (fst e <=? fst e'); [auto|].
  rewrite IH. apply perm_swap.
Qed.

Lemma sort_key_perm {A} (l : list (Z * A)) : Permutation (sort_key l) l.
Proof. induction l; simpl; [auto|]. rewrite insert_key_perm. auto. Qed.

(* entries of a map of lists as a keyed list *)
Definition flat {A} (m : omap (list A)) : list (Z * A) := flat_map (fun e => map (pair (fst e)) (snd e)) m.

Lemma flat_snd {A} (m : omap (list A)) : map snd (flat m) = elems m.
Proof.
  unfold flat, elems. induction m as [|[k l] m IH]; simpl; [reflexivity|].
  rewrite map_app, IH. f_equal. rewrite map_map. simpl. apply map_id.
Qed.

Lemma flat_In {A} (m : omap (list A)) k a : In (k, a) (flat m) -> In k (mkeys m).
Proof.
  unfold flat. rewrite in_flat_map. intros ([k' l] & H & H2). simpl in H2. apply in_map_iff in H2.
  destruct H2 as (x & E & Hx). inversion E; subst. apply in_map_iff. exists (k, l). auto.
Qed.

Lemma flat_sorted {A} (m : omap (list A)) : msorted m -> ksorted (flat m).
Proof.
  induction m as [|[k l] m IH]; simpl; intros S; [exact I|]. destruct S as [L S].
  specialize (IH S). induction l as [|a l IHl]; simpl; [exact IH|]. split; [|exact IHl].
  intros [k' a'] H. apply in_app_or in H. destruct H as [H|H].
  - apply in_map_iff in H. destruct H as (x & E & _). inversion E; subst. simpl. lia.
  - apply flat_In in H. simpl. specialize (L _ H). lia.
Qed.

Lemma at_key_pairs {A} k j (l : list A) : at_key k (map (pair j) l) = if j =? k then l else [].
Proof.
  induction l as [|a l IH]; simpl; [destruct (j =? k); reflexivity|].
  rewrite at_key_cons. simpl. rewrite IH. destruct (j =? k); reflexivity.
Qed.

Lemma flat_at {A} k (m : omap (list A)) : msorted m -> at_key k (flat m) = mentry k m.
Proof.
  unfold mentry. induction m as [|[k' l] m IH]; simpl; intros S; [reflexivity|]. destruct S as [L S].
  rewrite at_key_app, at_key_pairs, (IH S). rewrite (Z.eqb_sym k k').
  destruct (Z.eqb_spec k' k) as [E|E]; [|reflexivity].
  subst. assert (mget k m = None) as ->; [|apply app_nil_r].
  apply mget_None_notin. intros H. apply L in H. lia.
Qed.

Lemma elems_sorted_log {A} (m : omap (list A)) (l : list (Z * A)) :
  msorted m -> (forall k, mentry k m = at_key k l) -> elems m = map snd (sort_key l).
Proof.
  intros S H. rewrite <- flat_snd. f_equal. apply ksorted_ext; [apply flat_sorted; auto|apply sort_key_sorted|].
  intros k. rewrite flat_at, sort_key_at by auto. apply H.
Qed.

Lemma at_key_filter {A} (f : Z -> bool) k (l : list (Z * A)) :
  at_key k (filter (fun e => f (fst e)) l) = if f k then at_key k l else [].
Proof.
  induction l as [|[k' a] l IH]; simpl; [destruct (f k); reflexivity|].
  rewrite at_key_cons. simpl. destruct (f k') eqn:E.
  - rewrite at_key_cons, IH. simpl. destruct (Z.eqb_spec k' k); [subst; rewrite E|]; destruct (f k); reflexivity.
  - rewrite IH. destruct (Z.eqb_spec k' k); [subst; rewrite E; reflexivity|reflexivity].
Qed.

(* ---------------- creation log ---------------- *)
Lemma sym_keys_spec l :
  sym_keys l = if forallb (fun v => idx_ok (snd v)) l then Ok (map (fun v => raw (fst v) (snd v)) l) else Throw.
Proof.
  induction l as [|[c i] l IH]; simpl; [reflexivity|]. unfold sym_key. destruct (idx_ok i); simpl; [|reflexivity].
  rewrite IH. destruct (forallb _ l); reflexivity.
Qed.

Lemma gm_set_frame_fac c k v g :
  gm_inv g -> g_fac (fst (gm_set c k v g)) = g_fac g /\ g_new_fac (fst (gm_set c k v g)) = g_new_fac g.
Proof. intros I. pose proof (gm_set_frame c k v g I) as F. cbv zeta in F. tauto. Qed.

Section Log.
Variable bp : Z -> Z -> Z -> Z -> Z.

(* no optimisation of the history failed *)
Fixpoint opts_ok (s : igm) (ops : list gmop) : Prop :=
  match ops with
  | [] => True
  | op :: ops' =>
      (match op with OOptimise _ _ => is_ok (snd (gm_step bp s op)) = true | _ => True end) /\
      opts_ok (fst (gm_step bp s op)) ops'
  end.

(* the model's symbol table is the independent one of the specification *)
Lemma vars_table kind k :
  forallb (fun v => (0 <=? snd v) && (snd v <? 2 ^ 56)) (spec_vars kind k) = forallb (fun v => idx_ok (snd v)) (factor_vars kind k) /\
  map (fun v => gkey (fst v) (snd v)) (spec_vars kind k) = map (fun v => raw (fst v) (snd v)) (factor_vars kind k).
Proof. destruct kind; split; reflexivity. Qed.

Lemma creations_create s kind k meas : kind <> FStereo ->
  creations s (OCreate kind k meas) =
  if forallb (fun v => idx_ok (snd v)) (factor_vars kind k)
  then [(k, mkFactor kind (map (fun v => raw (fst v) (snd v)) (factor_vars kind k)) meas)] else [].
Proof.
  intros H. destruct (vars_table kind k) as [<- <-]. unfold creations. destruct kind; try reflexivity. contradiction.
Qed.

Definition log_eq (m : omap (list factor)) (l : list (Z * factor)) : Prop := forall k, mentry k m = at_key k l.

Lemma log_push k fs m l :
  log_eq m l -> log_eq (push_all k fs m) (l ++ map (fun x => (k, x)) fs).
Proof.
  intros H j. rewrite mentry_push_all, at_key_app, <- (H j). change (fun x : factor => (k, x)) with (@pair Z factor k).
  rewrite at_key_pairs, (Z.eqb_sym k j). destruct (j =? k); [reflexivity|rewrite app_nil_r; reflexivity].
Qed.

(* every call appends its creations to the full record; pending likewise unless it is an optimisation *)
Lemma step_log s op L :
  igm_inv s -> snd (gm_step bp s op) <> UB -> log_eq (g_fac (i_gm s)) L ->
  log_eq (g_fac (i_gm (fst (gm_step bp s op)))) (L ++ creations s op).
Proof.
  intros I NU H. pose proof (inv_gm _ I) as Ig.
  assert (Same: forall g', g_fac g' = g_fac (i_gm s) -> log_eq (g_fac g') (L ++ [])).
  { intros g' ->. rewrite app_nil_r. exact H. }
  destruct op; simpl gm_step in *; simpl creations;
    try (apply Same; unfold lift; gsimp; apply gm_set_frame_fac; auto);
    try (apply Same; reflexivity).
  - apply Same. unfold lift, gm_set_navstate. gsimp.
    pose proof (gm_set_inv SymX k p _ Ig) as I0. pose proof (gm_set_frame_fac SymX k p _ Ig) as [F0 _].
    destruct (gm_set SymX k p (i_gm s)) as [g1 [u| |]]; cbn [fst] in *; auto.
    rewrite <- F0. apply gm_set_frame_fac; auto.
  - apply Same. unfold lift, gm_increment. destruct (sget name (g_keys (i_gm s))) as [[? ?]|]; reflexivity.
  - apply Same. unfold lift, gm_set_timestamp. destruct (0 <=? k); reflexivity.
  - assert (Cr: forall vs, log_eq (g_fac (i_gm (fst (lift s (gm_create kind k vs meas (i_gm s))))))
      (L ++ if forallb (fun v => idx_ok (snd v)) vs then [(k, mkFactor kind (map (fun v => raw (fst v) (snd v)) vs) meas)] else [])).
    { intros vs. unfold lift, gm_create. rewrite sym_keys_spec. destruct (forallb _ vs); [|apply Same; reflexivity].
      unfold gm_add_factor. gsimp. apply (log_push k [_] _ _ H). }
    destruct kind; try (match goal with |- context[mkFactor ?kd] => exact (eq_ind _ (fun l => log_eq _ (L ++ l)) (Cr (factor_vars kd k)) _ (eq_sym (creations_create s kd k meas ltac:(discriminate)))) end). apply Same; reflexivity.
  - unfold lift in *. gsimp.
    destruct (gm_create_stereo_exact bp k features (i_gm s) Ig) as (_ & E & _).
    { destruct (snd (gm_create_stereo bp k features (i_gm s))); simpl in NU; congruence. }
    intros j. rewrite E. apply log_push. exact H.
  - apply Same. unfold lift. gsimp. apply gm_update_all_frame.
  - apply Same. pose proof (igm_extract_frame o m (i_gm s) Ig) as F. cbv zeta in F.
    destruct (igm_optimise_split o m s I) as [(g1 & E & R)|[(g1 & E & R)|[(g1 & fs & vs & E & A & R)|(g1 & fs & vs & E & A & R)]]];
      try (rewrite R; rewrite E in F; gsimp; apply F).
    cbv zeta in R. destruct R as (_ & _ & R). rewrite R. rewrite E in F. cbn [fst] in F.
    destruct F as (_ & _ & _ & F & _).
    assert (G: g_fac (fst (gm_update_all (estimate o (i_vars s ++ mkeys vs)) g1)) = g_fac (i_gm s)).
    { rewrite <- F. apply gm_update_all_frame. }
    destruct (i_marg_on s && (i_marg_key s <=? m - i_window s)); cbn [fst]; [|exact G].
    rewrite <- G. apply (igm_marginalise_frame o (m - i_window s)
          (mkIgm (fst (gm_update_all (estimate o (i_vars s ++ mkeys vs)) g1)) (i_vars s ++ mkeys vs) (i_facs s ++ fs) m (i_marg_on s) (i_marg_key s) (i_window s))).
  - apply Same. destruct (igm_marginalise_frame o k s) as (_&_&M&_).
    destruct (igm_marginalise o k s) as [s' [ks| |]]; cbn [fst] in *; exact M.
Qed.

Lemma step_pending s op P :
  igm_inv s -> snd (gm_step bp s op) <> UB -> opt_bound op = None -> log_eq (g_new_fac (i_gm s)) P ->
  log_eq (g_new_fac (i_gm (fst (gm_step bp s op)))) (P ++ creations s op).
Proof.
  intros I NU OB H. pose proof (inv_gm _ I) as Ig.
  assert (Same: forall g', g_new_fac g' = g_new_fac (i_gm s) -> log_eq (g_new_fac g') (P ++ [])).
  { intros g' ->. rewrite app_nil_r. exact H. }
  destruct op; simpl gm_step in *; simpl creations;
    try (apply Same; unfold lift; gsimp; apply gm_set_frame_fac; auto);
    try (apply Same; reflexivity).
  - apply Same. unfold lift, gm_set_navstate. gsimp.
    pose proof (gm_set_inv SymX k p _ Ig) as I0. pose proof (gm_set_frame_fac SymX k p _ Ig) as [_ F0].
    destruct (gm_set SymX k p (i_gm s)) as [g1 [u| |]]; cbn [fst] in *; auto.
    rewrite <- F0. apply gm_set_frame_fac; auto.
  - apply Same. unfold lift, gm_increment. destruct (sget name (g_keys (i_gm s))) as [[? ?]|]; reflexivity.
  - apply Same. unfold lift, gm_set_timestamp. destruct (0 <=? k); reflexivity.
  - assert (Cr: forall vs, log_eq (g_new_fac (i_gm (fst (lift s (gm_create kind k vs meas (i_gm s))))))
      (P ++ if forallb (fun v => idx_ok (snd v)) vs then [(k, mkFactor kind (map (fun v => raw (fst v) (snd v)) vs) meas)] else [])).
    { intros vs. unfold lift, gm_create. rewrite sym_keys_spec. destruct (forallb _ vs); [|apply Same; reflexivity].
      unfold gm_add_factor. gsimp. apply (log_push k [_] _ _ H). }
    destruct kind; try (match goal with |- context[mkFactor ?kd] => exact (eq_ind _ (fun l => log_eq _ (P ++ l)) (Cr (factor_vars kd k)) _ (eq_sym (creations_create s kd k meas ltac:(discriminate)))) end). apply Same; reflexivity.
  - unfold lift in *. gsimp.
    destruct (gm_create_stereo_exact bp k features (i_gm s) Ig) as (_ & _ & E & _).
    { destruct (snd (gm_create_stereo bp k features (i_gm s))); simpl in NU; congruence. }
    intros j. rewrite E. apply log_push. exact H.
  - apply Same. unfold lift. gsimp. apply gm_update_all_frame.
  - simpl in OB. discriminate.
  - apply Same. destruct (igm_marginalise_frame o k s) as (_&_&_&M&_).
    destruct (igm_marginalise o k s) as [s' [ks| |]]; cbn [fst] in *; exact M.
Qed.

(* a successful optimisation hands over exactly the pending factors up to the bound *)
Lemma step_optimise s o m P s' fs vs ks :
  igm_inv s -> log_eq (g_new_fac (i_gm s)) P -> gm_step bp s (OOptimise o m) = (s', Ok (fs, vs, ks)) ->
  fs = map snd (sort_key (filter (fun e => fst e <=? m) P)) /\
  log_eq (g_new_fac (i_gm s')) (filter (fun e => m <? fst e) P) /\ i_facs s' = i_facs s ++ fs.
Proof.
  intros I H E0. simpl in E0. pose proof (inv_gm _ I) as Ig.
  destruct (igm_optimise_split o m s I) as [(g1 & E & R)|[(g1 & E & R)|[(g1 & fs' & vs' & E & A & R)|(g1 & fs' & vs' & E & A & R)]]];
    try (rewrite R in E0; discriminate).
  apply igm_extract_spec in E; auto. destruct E as (I1 & Ef & Enf & _).
  cbv zeta in R. destruct R as (_ & _ & R). rewrite R in E0.
  set (g2 := fst (gm_update_all (estimate o (i_vars s ++ mkeys vs')) g1)) in *.
  set (s3 := mkIgm g2 (i_vars s ++ mkeys vs') (i_facs s ++ fs') m (i_marg_on s) (i_marg_key s) (i_window s)) in *.
  assert (Hn: g_new_fac g2 = g_new_fac g1) by apply gm_update_all_frame.
  assert (Hs': fs = fs' /\ g_new_fac (i_gm s') = g_new_fac g1 /\ i_facs s' = i_facs s ++ fs').
  { destruct (i_marg_on s && (i_marg_key s <=? m - i_window s)).
    - destruct (igm_marginalise_frame o (m - i_window s) s3) as (_&_&_&M&_&_&_&_&_&Mf&_).
      destruct (snd (igm_marginalise o (m - i_window s) s3)); inversion E0; subst. 
      rewrite M, Mf. subst s3. gsimp. auto.
    - inversion E0; subst. gsimp. auto. }
  destruct Hs' as (-> & Hs' & Hf). split; [|split; [|exact Hf]].
  - rewrite Ef. apply elems_sorted_log; [apply msorted_filter; destruct Ig; auto|].
    intros k. rewrite (mentry_filter (fun x => x <=? m)), (at_key_filter (fun x => x <=? m)), H. reflexivity.
  - intros k. rewrite Hs', Enf, (mentry_filter (fun x => m <? x)), (at_key_filter (fun x => m <? x)), H. reflexivity.
Qed.

(* logs along a history *)
Lemma run_logs ops s L P :
  igm_inv s -> no_ub (gm_trace bp s ops) -> opts_ok s ops ->
  log_eq (g_fac (i_gm s)) L -> log_eq (g_new_fac (i_gm s)) P ->
  log_eq (g_fac (i_gm (gm_run bp s ops))) (L ++ run_creations bp s ops) /\
  log_eq (g_new_fac (i_gm (gm_run bp s ops))) (run_pending bp s ops P).
Proof.
  revert s L P. induction ops as [|op ops IH]; simpl; intros s L P I NU OK HL HP.
  - rewrite app_nil_r. auto.
  - destruct OK as [OK1 OK].
    assert (NU1: snd (gm_step bp s op) <> UB) by (apply NU; left; reflexivity).
    assert (NU2: no_ub (gm_trace bp (fst (gm_step bp s op)) ops)) by (intros o Ho; apply NU; right; exact Ho).
    rewrite app_assoc. apply IH; auto.
    + apply gm_step_inv; auto.
    + apply step_log; auto.
    + destruct (opt_bound op) as [m|] eqn:OB; [|apply step_pending; auto].
      destruct op; try discriminate OB. simpl in OB. inversion OB; subst m0. clear OB.
      destruct (gm_step bp s (OOptimise o m)) as [s' r] eqn:E. cbn [fst snd] in *.
      destruct r as [[[fs vs] ks]| |]; try discriminate.
      simpl creations. rewrite app_nil_r. eapply step_optimise; eauto.
Qed.

Lemma init_log : log_eq (g_fac (i_gm igm_init)) [] /\ log_eq (g_new_fac (i_gm igm_init)) [].
Proof. split; intros k; reflexivity. Qed.

(* C03: what one optimisation hands over *)
Lemma optimise_hands_pending ops o m s' fs vs ks :
  no_ub (gm_trace bp igm_init ops) -> opts_ok igm_init ops ->
  gm_step bp (gm_run bp igm_init ops) (OOptimise o m) = (s', Ok (fs, vs, ks)) ->
  fs = map snd (sort_key (filter (fun e => fst e <=? m) (run_pending bp igm_init ops []))).
Proof.
  intros NU OK E. destruct init_log as [H1 H2].
  destruct (run_logs ops igm_init [] [] igm_init_inv NU OK H1 H2) as [_ HP].
  eapply step_optimise; eauto. apply gm_run_inv, igm_init_inv.
Qed.

(* C03: conservation *)
Lemma factors_conserved_aux ops s P H :
  igm_inv s -> no_ub (gm_trace bp s ops) -> opts_ok s ops ->
  log_eq (g_new_fac (i_gm s)) P -> i_facs s = H ->
  Permutation (i_facs (gm_run bp s ops) ++ map snd (run_pending bp s ops P))
              (H ++ map snd P ++ map snd (run_creations bp s ops)).
Proof.
  revert s P H. induction ops as [|op ops IH]; simpl; intros s P H I NU OK HP HH.
  - subst H. rewrite app_nil_r. auto.
  - destruct OK as [OK1 OK].
    assert (NU1: snd (gm_step bp s op) <> UB) by (apply NU; left; reflexivity).
    assert (NU2: no_ub (gm_trace bp (fst (gm_step bp s op)) ops)) by (intros o Ho; apply NU; right; exact Ho).
    pose proof (gm_step_inv bp s op I) as I'.
    destruct (opt_bound op) as [m|] eqn:OB.
    + destruct op; try discriminate OB. simpl in OB. inversion OB; subst m0. clear OB.
      destruct (gm_step bp s (OOptimise o m)) as [s' r] eqn:E. cbn [fst snd] in *.
      destruct r as [[[fs vs] ks]| |]; try discriminate.
      destruct (step_optimise s o m P s' fs vs ks I HP E) as (Ef & HP' & Hf).
      simpl creations. rewrite app_nil_r. simpl map at 3.
      rewrite (IH s' _ (i_facs s') I' NU2 OK HP' eq_refl). rewrite Hf, HH, <- app_assoc.
      apply Permutation_app_head. rewrite app_assoc. apply Permutation_app_tail.
      rewrite Ef. rewrite sort_key_perm, <- map_app. apply Permutation_map. clear.
      induction P as [|e P IH]; simpl; [auto|]. destruct (Z.leb_spec (fst e) m) as [Hl|Hl].
      * destruct (Z.ltb_spec m (fst e)); [lia|]. simpl. auto.
      * destruct (Z.ltb_spec m (fst e)); [|lia]. symmetry. etransitivity; [|apply Permutation_middle]. constructor. symmetry. exact IH.
    + pose proof (step_pending s op P I NU1 OB HP) as HP'.
      assert (Hf: i_facs (fst (gm_step bp s op)) = H).
      { rewrite <- HH. destruct op; simpl gm_step; try reflexivity; try discriminate OB.
        - destruct kind; reflexivity.
        - destruct (igm_marginalise_frame o k s) as (_&_&_&_&_&_&_&_&_&M&_).
          destruct (igm_marginalise o k s) as [s' [ks| |]]; exact M. }
      rewrite (IH _ _ _ I' NU2 OK HP' Hf). rewrite !map_app, <- app_assoc. auto.
Qed.

Lemma factors_conserved ops :
  no_ub (gm_trace bp igm_init ops) -> opts_ok igm_init ops ->
  Permutation (i_facs (gm_run bp igm_init ops) ++ map snd (run_pending bp igm_init ops []))
              (map snd (run_creations bp igm_init ops)).
Proof.
  intros NU OK. rewrite (factors_conserved_aux ops igm_init [] [] igm_init_inv NU OK); auto.
  intros k; reflexivity.
Qed.

(* full record; no hypothesis on optimisations *)
Lemma run_log ops s L :
  igm_inv s -> no_ub (gm_trace bp s ops) -> log_eq (g_fac (i_gm s)) L ->
  log_eq (g_fac (i_gm (gm_run bp s ops))) (L ++ run_creations bp s ops).
Proof.
  revert s L. induction ops as [|op ops IH]; simpl; intros s L I NU HL.
  - rewrite app_nil_r. auto.
  - rewrite app_assoc. apply IH; auto using gm_step_inv.
    + intros o Ho; apply NU; right; exact Ho.
    + apply step_log; auto. apply NU; left; reflexivity.
Qed.

Lemma all_factors_record ops :
  no_ub (gm_trace bp igm_init ops) ->
  gm_all_factors (i_gm (gm_run bp igm_init ops)) = map snd (sort_key (run_creations bp igm_init ops)).
Proof.
  intros NU. pose proof (run_log ops igm_init [] igm_init_inv NU (fun k => eq_refl)) as H.
  unfold gm_all_factors. fold (elems (g_fac (i_gm (gm_run bp igm_init ops)))).
  apply elems_sorted_log; [|exact H].
  pose proof (gm_run_inv bp ops igm_init igm_init_inv) as I. destruct (inv_gm _ I); auto.
Qed.

(* C04 *)
Lemma zrange_In a b i : In i (zrange a b) <-> a <= i <= b.
Proof.
  unfold zrange. rewrite in_map_iff. split.
  - intros (n & E & H). apply in_seq in H. lia.
  - intros H. exists (Z.to_nat (i - a)). split; [lia|]. apply in_seq. lia.
Qed.

Lemma range_sorted_log (l : list (Z * factor)) (ks : list Z) :
  (forall i j n m, (n < m)%nat -> nth_error ks n = Some i -> nth_error ks m = Some j -> i < j) ->
  concat (map (fun i => at_key i l) ks) = map snd (sort_key (filter (fun e => zmem (fst e) ks) l)).
Proof.
  intros Hs.
  set (m := map (fun i => (i, at_key i l)) ks : omap (list factor)).
  assert (Sm: msorted m).
  { subst m. induction ks as [|a ks IH]; simpl; [exact I|]. split.
    - intros k Hk. unfold mkeys in Hk. rewrite map_map in Hk. simpl in Hk. rewrite map_id in Hk.
      apply In_nth_error in Hk. destruct Hk as [n Hn]. apply (Hs a k 0%nat (S n)); simpl; auto. lia.
    - apply IH. intros i j n m Hnm Hi Hj. apply (Hs i j (S n) (S m)); simpl; auto. lia. }
  assert (E: concat (map (fun i => at_key i l) ks) = elems m).
  { subst m. unfold elems. rewrite map_map. reflexivity. }
  rewrite E. apply elems_sorted_log; auto. intros k.
  rewrite (at_key_filter (fun x => zmem x ks)). unfold mentry. destruct (zmem k ks) eqn:Ez.
  - apply zmem_In in Ez. rewrite (In_mget k (at_key k l)); auto. subst m. apply in_map_iff. exists k; auto.
  - assert (mget k m = None) as ->; [|reflexivity]. apply mget_None_notin. intros Hk. apply zmem_false in Ez.
    apply Ez. subst m. unfold mkeys in Hk. rewrite map_map in Hk. simpl in Hk. rewrite map_id in Hk. exact Hk.
Qed.

Lemma factors_range ops first last :
  no_ub (gm_trace bp igm_init ops) ->
  gm_factors first last (i_gm (gm_run bp igm_init ops)) =
  map snd (sort_key (filter (fun e => (first <=? fst e) && (fst e <=? last)) (run_creations bp igm_init ops))).
Proof.
  intros NU. pose proof (run_log ops igm_init [] igm_init_inv NU (fun k => eq_refl)) as H. simpl in H.
  unfold gm_factors. rewrite (map_ext _ (fun i => at_key i (run_creations bp igm_init ops))) by (intros; apply H).
  rewrite range_sorted_log.
  - do 2 f_equal. apply filter_ext. intros e. apply eq_true_iff_eq. rewrite zmem_In, zrange_In. lia.
  - intros i j n m Hnm Hi Hj. unfold zrange in *. rewrite nth_error_map in Hi, Hj.
    destruct (nth_error (seq 0 _) n) as [a|] eqn:Ea; [|discriminate]. destruct (nth_error (seq 0 _) m) as [b|] eqn:Eb; [|discriminate].
    simpl in *. inversion Hi; inversion Hj; subst.
    assert (La: (n < length (seq 0 (Z.to_nat (last - first + 1))))%nat) by (apply nth_error_Some; congruence).
    assert (Lb: (m < length (seq 0 (Z.to_nat (last - first + 1))))%nat) by (apply nth_error_Some; congruence).
    rewrite seq_length in La, Lb.
    apply nth_error_nth with (d := 0%nat) in Ea, Eb. rewrite seq_nth in Ea, Eb by lia. lia.
Qed.

Lemma filter_elems (p : factor -> bool) (m : omap (list factor)) :
  concat (map (fun e => filter p (snd e)) m) = filter p (elems m).
Proof. unfold elems. induction m as [|[k l] m IH]; simpl; [reflexivity|]. rewrite IH, filter_app. reflexivity. Qed.

Lemma factors_for_variable ops rk :
  no_ub (gm_trace bp igm_init ops) ->
  gm_factors_for_key rk (i_gm (gm_run bp igm_init ops)) =
  filter (fun f => zmem rk (f_vars f)) (map snd (sort_key (run_creations bp igm_init ops))).
Proof.
  intros NU. unfold gm_factors_for_key. rewrite filter_elems. rewrite <- (all_factors_record ops NU). reflexivity.
Qed.

(* a rejected optimisation loses the factors it had extracted *)
End Log.
