(* Stereo frame sequences: C10, C11, C12. *)
From Verif Require Import Base GmModel GmSpec GmInv GmProofs GmFactors GmValues GmHist GmKeys.

(* ---- specification: frames numbered by consecutive keys ---- *)
Fixpoint stereo_calls (ops : list gmop) : list (Z * omap Z) :=
  match ops with
  | [] => []
  | OStereo k f :: ops' => (k, f) :: stereo_calls ops'
  | _ :: ops' => stereo_calls ops'
  end.

Fixpoint number {A} (k : Z) (l : list A) : list (Z * A) :=
  match l with [] => [] | a :: l' => (k, a) :: number (k + 1) l' end.

(* measurement of a feature id in the frame of key j, if it was seen there *)
Definition seen (k0 : Z) (frames : list (omap Z)) (j id : Z) : option Z :=
  if j <? k0 then None
  else match nth_error frames (Z.to_nat (j - k0)) with Some f => mget id f | None => None end.

Definition issome {A} (o : option A) : bool := match o with Some _ => true | None => false end.

(* projection factors between pose x and landmark id *)
Definition is_pair (x id : Z) (f : factor) : bool :=
  match f_kind f, f_vars f with
  | FStereo, [a; b] => (a =? raw SymX x) && (b =? raw SymS id)
  | _, _ => false
  end.

Definition stereo_factor (x id meas : Z) : factor := mkFactor FStereo [raw SymX x; raw SymS id] meas.

(* ---- auxiliary: view with the two preceding frames ---- *)
Definition osee (o : option (omap Z)) (id : Z) : option Z := match o with Some f => mget id f | None => None end.

Definition view (k : Z) (im2 im1 : option (omap Z)) (frames : list (omap Z)) (j id : Z) : option Z :=
  if j =? k - 2 then osee im2 id else if j =? k - 1 then osee im1 id else seen k frames j id.

Lemma seen_next k f frames j id : k < j -> seen (k + 1) frames j id = seen k (f :: frames) j id.
Proof.
  intros H. unfold seen. destruct (Z.ltb_spec j (k + 1)); [lia|]. destruct (Z.ltb_spec j k); [lia|].
  replace (Z.to_nat (j - k)) with (S (Z.to_nat (j - (k + 1)))) by lia. reflexivity.
Qed.

Lemma seen_head k f frames id : seen k (f :: frames) k id = mget id f.
Proof. unfold seen. rewrite Z.ltb_irrefl, Z.sub_diag. reflexivity. Qed.

Lemma view_next k im2 im1 f frames j id : k - 1 <= j ->
  view (k + 1) im1 (Some f) frames j id = view k im2 im1 (f :: frames) j id.
Proof.
  intros H. unfold view. destruct (Z.eqb_spec j (k + 1 - 2)); [subst|].
  - destruct (Z.eqb_spec (k + 1 - 2) (k - 2)); [lia|]. destruct (Z.eqb_spec (k + 1 - 2) (k - 1)); [reflexivity|lia].
  - destruct (Z.eqb_spec j (k + 1 - 1)).
    + replace j with k by lia. destruct (Z.eqb_spec k (k - 2)); [lia|]. destruct (Z.eqb_spec k (k - 1)); [lia|].
      rewrite seen_head. reflexivity.
    + destruct (Z.eqb_spec j (k - 2)); [lia|]. destruct (Z.eqb_spec j (k - 1)); [lia|]. apply seen_next. lia.
Qed.

Lemma view_start k frames j id : view k None None frames j id = seen k frames j id.
Proof.
  unfold view. destruct (Z.eqb_spec j (k - 2)); [subst; unfold seen; destruct (Z.ltb_spec (k - 2) k); [reflexivity|lia]|].
  destruct (Z.eqb_spec j (k - 1)); [subst; unfold seen; destruct (Z.ltb_spec (k - 1) k); [reflexivity|lia]|]. reflexivity.
Qed.

(* ---- one frame ---- *)
Lemma raw_eqb c i j : idx_ok i = true -> idx_ok j = true -> (raw c i =? raw c j) = (i =? j).
Proof.
  intros H1 H2. destruct (Z.eqb_spec (raw c i) (raw c j)) as [E|E].
  - apply raw_inj in E; auto. destruct E as [_ ->]. symmetry. apply Z.eqb_refl.
  - destruct (Z.eqb_spec i j); [subst; congruence|reflexivity].
Qed.

Definition firstb (im2 : option (omap Z)) (id : Z) : bool := negb (issome (osee im2 id)).

Lemma first_eq im2 id : match im2 with Some f => negb (mmem id f) | None => true end = firstb im2 id.
Proof. unfold firstb, osee, mmem. destruct im2; [destruct (mget id o); reflexivity|reflexivity]. Qed.

Lemma frame_pairs k f f1 im2 x id :
  msorted f -> idx_ok k = true -> idx_ok x = true -> idx_ok id = true ->
  forallb (track_ok k) (tracks_of f f1 im2) = true ->
  filter (is_pair x id) (flat_map (track_factors k) (tracks_of f f1 im2)) =
  match mget id f, mget id f1 with
  | Some meas, Some p =>
      if x =? k then [stereo_factor k id meas]
      else if (x =? k - 1) && firstb im2 id then [stereo_factor (k - 1) id p] else []
  | _, _ => []
  end.
Proof.
  intros S Hk Hx Hid. induction f as [|[i meas] f IH]; intros Hok; [reflexivity|].
  destruct S as [L S]. simpl tracks_of in *. simpl mget.
  assert (Hnot: mget i f = None).
  { destruct (mget i f) eqn:E; [|reflexivity]. apply mget_key_In in E. apply L in E. lia. }
  destruct (mget i f1) as [p|] eqn:Hp.
  - rewrite first_eq in *. simpl app in *. simpl in Hok. apply andb_prop in Hok. destruct Hok as [Ht Hok].
    unfold track_ok in Ht. simpl in Ht. apply andb_prop in Ht. destruct Ht as [Hi Hk1].
    simpl flat_map. rewrite filter_app. specialize (IH S Hok). unfold tracks_of in IH. 
    assert (IHx: filter (is_pair x id) (flat_map (track_factors k) (flat_map
       (fun e => match mget (fst e) f1 with
                 | Some p0 => [mkTrack (fst e) p0 (snd e) (match im2 with Some f0 => negb (mmem (fst e) f0) | None => true end)]
                 | None => [] end) f)) = 
        match mget id f, mget id f1 with
        | Some meas, Some p =>
            if x =? k then [stereo_factor k id meas]
            else if (x =? k - 1) && firstb im2 id then [stereo_factor (k - 1) id p] else []
        | _, _ => [] end) by exact IH.
    unfold tracks_of. rewrite IHx. clear IH IHx.
    assert (Hcur: is_pair x id (stereo_factor k i meas) = (x =? k) && (id =? i)).
    { unfold is_pair, stereo_factor. simpl. rewrite !raw_eqb by auto. rewrite (Z.eqb_sym k x), (Z.eqb_sym i id). reflexivity. }
    unfold track_factors. cbn [t_first t_id t_prev t_meas].
    change (mkFactor FStereo [raw SymX k; raw SymS i] meas) with (stereo_factor k i meas).
    change (mkFactor FStereo [raw SymX (k - 1); raw SymS i] p) with (stereo_factor (k - 1) i p).
    rewrite filter_app. simpl filter at 2. rewrite Hcur.
    assert (Hprev: filter (is_pair x id) (if firstb im2 i then [stereo_factor (k - 1) i p] else []) =
                   if firstb im2 i && ((x =? k - 1) && (id =? i)) then [stereo_factor (k - 1) i p] else []).
    { destruct (firstb im2 i) eqn:Hf; [|reflexivity]. simpl in Hk1. simpl filter.
      assert (E: is_pair x id (stereo_factor (k - 1) i p) = (x =? k - 1) && (id =? i)).
      { unfold is_pair, stereo_factor. simpl. rewrite !raw_eqb by auto. rewrite (Z.eqb_sym (k - 1) x), (Z.eqb_sym i id). reflexivity. }
      rewrite E. reflexivity. }
    rewrite Hprev. destruct (Z.eqb_spec id i) as [->|Hne].
    + rewrite Hnot, Hp, app_nil_r, !andb_true_r. destruct (Z.eqb_spec x k) as [->|Hxk].
      * destruct (Z.eqb_spec k (k - 1)); [lia|]. rewrite andb_false_r. reflexivity.
      * rewrite app_nil_r, andb_comm. reflexivity.
    + rewrite !andb_false_r. reflexivity.
  - simpl in *. rewrite IH by auto. destruct (Z.eqb_spec id i) as [->|]; [|reflexivity].
    rewrite Hnot, Hp. reflexivity.
Qed.

Lemma frame_firsts f f1 im2 id :
  In id (map t_id (filter t_first (tracks_of f f1 im2))) <->
  In id (mkeys f) /\ mget id f1 <> None /\ firstb im2 id = true.
Proof.
  induction f as [|[i meas] f IH]; [simpl; tauto|]. simpl tracks_of. rewrite filter_app, map_app, in_app_iff, IH. clear IH.
  simpl mkeys. destruct (mget i f1) as [p|] eqn:Hp.
  - rewrite first_eq. simpl. destruct (firstb im2 i) eqn:Hf; simpl.
    + split.
      * intros [[<-|[]]|H]; [split; [auto|split; [congruence|auto]]|tauto].
      * intros ([<-|H] & H2 & H3); auto.
    + split; [tauto|]. intros ([<-|H] & H2 & H3); [congruence|tauto].
  - simpl. split; [tauto|]. intros ([<-|H] & H2 & H3); [congruence|tauto].
Qed.

Section Stereo.
Variable bp : Z -> Z -> Z -> Z -> Z.

(* a successful call registers every track *)
Lemma stereo_ok_all k f g k1 fi k2 im1 rest :
  gm_inv g -> snd (gm_create_stereo bp k f g) = Ok tt ->
  rev (mput k f (g_feat g)) = (k1, fi) :: (k2, im1) :: rest ->
  let im2 := match rest with [] => None | (_, f2) :: _ => Some f2 end in
  mmem k (g_feat g) = false /\ idx_ok k = true /\
  (exists p c, mget (raw SymX k) (g_val g) = Some p /\ g_cam g = Some c) /\
  forallb (track_ok k) (tracks_of fi im1 im2) = true /\
  stereo_done k f g = tracks_of fi im1 im2 /\
  (tracks_of fi im1 im2 = [] \/ exists kal, g_calib g = Some kal).
Proof.
  intros I H E. cbv zeta. unfold gm_create_stereo in H. unfold stereo_done.
  destruct (mmem k (g_feat g)) eqn:Hm; [discriminate|]. split; [reflexivity|].
  set (g2 := with_fac _ _ _) in H. change (g_feat g2) with (mput k f (g_feat g)) in H. rewrite E in *.
  unfold gm_has, gm_get, sym_key in H. destruct (idx_ok k) eqn:Hk; [|discriminate]. split; [reflexivity|].
  unfold mmem in H. change (g_val g2) with (g_val g) in H. destruct (mget (raw SymX k) (g_val g)) as [p|]; [|discriminate].
  change (g_cam g2) with (g_cam g) in H. destruct (g_cam g) as [c|]; [|discriminate]. split; [eauto|].
  set (g3 := with_ids _ _ g2) in H. set (im2 := match rest with [] => None | (_, f2) :: _ => Some f2 end) in *.
  assert (I3: gm_inv g3).
  { subst g3 g2. pose proof I as I3. destruct I3. apply with_ids_inv; gsimp; auto using mtouch_sorted.
    apply with_fac_inv; gsimp; auto using mtouch_sorted. apply with_feat_inv; auto using msorted_mput. }
  assert (Hall: forallb (track_ok k) (tracks_of fi im1 im2) = true /\
                (tracks_of fi im1 im2 = [] \/ exists kal, g_calib g = Some kal)).
  { destruct (g_calib g3) as [kal|] eqn:Hc.
    - destruct (stereo_loop_exact bp k im1 im2 p c fi g3 kal I3 Hk Hc) as (g' & E' & _). cbv zeta in E'.
      fold im2 in H. rewrite E' in H. simpl in H. split; [destruct (forallb _ _); [reflexivity|discriminate]|].
      right. exists kal. exact Hc.
    - destruct (stereo_loop_no_calib_exact bp k im1 im2 p c fi g3 I3 Hk Hc) as [U|(r & E' & T & R)].
      + fold im2 in H. rewrite U in H. discriminate.
      + fold im2 in H. rewrite E' in H. simpl in H. apply R in H. rewrite H. split; [reflexivity|left; reflexivity]. }
  destruct Hall as [Hall Hcal]. split; [exact Hall|]. split; [|exact Hcal].
  clear -Hall. induction (tracks_of fi im1 im2) as [|t ts IH]; [reflexivity|]. simpl in *. apply andb_prop in Hall.
  destruct Hall as [A B]. rewrite A. f_equal. auto.
Qed.

(* frames stored so far: newest two given, all keys below k *)
Definition feat_view (k : Z) (im2 im1 : option (omap Z)) (g : gm) : Prop :=
  exists rest, rev (g_feat g) =
    match im1 with
    | None => []
    | Some f1 => (k - 1, f1) :: match im2 with None => [] | Some f2 => (k - 2, f2) :: rest end
    end /\
  (im1 = None -> im2 = None) /\ (forall j, In j (mkeys (g_feat g)) -> j < k).

Lemma mput_last {A} k (a : A) m : msorted m -> (forall j, In j (mkeys m) -> j < k) -> mput k a m = m ++ [(k, a)].
Proof.
  induction m as [|[k' a'] m IH]; intros S H; [reflexivity|]. simpl. pose proof (H k' (or_introl eq_refl)).
  destruct (Z.eqb_spec k k'); [lia|]. destruct (Z.ltb_spec k k'); [lia|]. f_equal. destruct S. apply IH; auto.
  intros j Hj. apply H. right; auto.
Qed.

Lemma feat_view_next k im2 im1 f g g' :
  gm_inv g -> feat_view k im2 im1 g -> g_feat g' = mput k f (g_feat g) -> feat_view (k + 1) im1 (Some f) g'.
Proof.
  intros I (rest & E & Hn & Hlt) Hg. rewrite mput_last in Hg by (destruct I; auto).
  exists (match im2 with None => [] | Some f2 => (k - 2, f2) :: rest end). rewrite Hg, rev_app_distr, E. split; [|split].
  - simpl. replace (k + 1 - 1) with k by lia. replace (k + 1 - 2) with (k - 1) by lia. destruct im1 as [f1|]; reflexivity.
  - discriminate.
  - intros j. unfold mkeys. rewrite map_app, in_app_iff. simpl. intros [H|[<-|[]]]; [apply Hlt in H; lia|lia].
Qed.

(* all stereo calls of a history succeed *)
Fixpoint stereo_ok (s : igm) (ops : list gmop) : Prop :=
  match ops with
  | [] => True
  | op :: ops' =>
      match op with OStereo _ _ => is_ok (snd (gm_step bp s op)) = true | _ => snd (gm_step bp s op) <> UB end
      /\ stereo_ok (fst (gm_step bp s op)) ops'
  end.

Lemma non_stereo s op : igm_inv s -> (forall k f, op <> OStereo k f) ->
  g_feat (i_gm (fst (gm_step bp s op))) = g_feat (i_gm s) /\
  (forall j, g_ids (i_gm (fst (gm_step bp s op))) = g_ids (i_gm s) /\ mentry j (g_ids (i_gm s)) = mentry j (g_ids (i_gm s))) /\
  forall x id, filter (is_pair x id) (map snd (creations s op)) = [].
Proof.
  intros I Hs.
  assert (HC: forall x id, filter (is_pair x id) (map snd (creations s op)) = []).
  { intros x id. destruct op; simpl; try reflexivity; [|exfalso; eapply Hs; reflexivity].
    destruct kind; simpl; try reflexivity;
      match goal with |- context [if ?b then _ else _] => destruct b; reflexivity end. }
  assert (HI: g_feat (i_gm (fst (gm_step bp s op))) = g_feat (i_gm s) /\ g_ids (i_gm (fst (gm_step bp s op))) = g_ids (i_gm s)).
  { destruct op; simpl gm_step; try (split; reflexivity);
      try (unfold lift; gsimp; split; [apply (set_frame g_feat)|apply (set_frame g_ids)]; reflexivity).
    - unfold lift, gm_set_navstate. gsimp.
      pose proof (set_frame g_feat ltac:(reflexivity) ltac:(reflexivity) SymX k p (i_gm s)) as A1.
      pose proof (set_frame g_ids ltac:(reflexivity) ltac:(reflexivity) SymX k p (i_gm s)) as A2.
      destruct (gm_set SymX k p (i_gm s)) as [g1 [u| |]]; cbn [fst] in *; auto. rewrite <- A1, <- A2. split;
      [apply (set_frame g_feat)|apply (set_frame g_ids)]; reflexivity.
    - unfold lift, gm_increment. destruct (sget name (g_keys (i_gm s))) as [[? ?]|]; split; reflexivity.
    - unfold lift, gm_set_timestamp. destruct (0 <=? k); split; reflexivity.
    - destruct kind; try (split; reflexivity); unfold lift, gm_create; gsimp;
        match goal with |- context [sym_keys ?v] => destruct (sym_keys v) end; split; reflexivity.
    - exfalso. eapply Hs; reflexivity.
    - unfold lift. gsimp. split; [apply (update_all_frame g_feat)|apply (update_all_frame g_ids)]; reflexivity.
    - split; [apply (optimise_ids_feat bp o m s I)|].
      pose proof (igm_optimise_split o m s I) as Sp.
      assert (Ex: forall g1 r, igm_extract o m (i_gm s) = (g1, r) -> g_ids g1 = g_ids (i_gm s)).
      { intros g1 r E. unfold igm_extract, gm_extract_values, gm_extract_factors in E. destruct (o_values_first o).
        - destruct (add_values4 (o_end o) (g_new_val (i_gm s)) 0 m); try (inversion E; subst; reflexivity).
          destruct (new_ids_loop _ _ _ _) as [ids' [x| |]]; try (inversion E; subst; reflexivity).
          destruct (take_upto _ _). inversion E; subst; reflexivity.
        - destruct (take_upto m (g_new_fac (i_gm s))) as [out rst]. gsimp.
          destruct (add_values4 (o_end o) (g_new_val (i_gm s)) 0 m); try (inversion E; subst; reflexivity).
          destruct (new_ids_loop _ _ _ _) as [ids' [x| |]]; inversion E; subst; reflexivity. }
      destruct Sp as [(g1 & E & R)|[(g1 & E & R)|[(g1 & fs & vs & E & A & R)|(g1 & fs & vs & E & A & R)]]];
        pose proof (Ex _ _ E) as Eg; try (unfold obs in *; rewrite R; cbn [fst]; gsimp; exact Eg).
      cbv zeta in R. destruct R as (_ & _ & R). unfold obs in *. rewrite R.
      destruct (i_marg_on s && (i_marg_key s <=? m - i_window s)); cbn [fst].
      + unfold igm_marginalise, gm_extract_unm. cbn [i_opt]. destruct (m <? m - i_window s); cbn [fst]; gsimp.
        * rewrite (update_all_frame g_ids) by reflexivity. exact Eg.
        * destruct (take_upto _ _) as [out rst]. destruct (forallb _ _ && o_leaves o); cbn [fst]; gsimp;
            rewrite (update_all_frame g_ids) by reflexivity; exact Eg.
      + gsimp. rewrite (update_all_frame g_ids) by reflexivity. exact Eg.
    - unfold igm_marginalise, gm_extract_unm. destruct (i_opt s <? k); [split; reflexivity|].
      destruct (take_upto _ _) as [out rst]. destruct (forallb _ _ && o_leaves o); split; reflexivity. }
  destruct HI as [H1 H2]. split; [exact H1|]. split; [intros j; rewrite H2; auto|exact HC].
Qed.

Lemma non_stereo_calls op ops : (forall k f, op <> OStereo k f) -> stereo_calls (op :: ops) = stereo_calls ops.
Proof. intros H. destruct op; try reflexivity. exfalso. eapply H; reflexivity. Qed.

(* what an accepted frame does, given the previous frames *)
Lemma stereo_step k f im2 im1 s :
  igm_inv s -> feat_view k im2 im1 (i_gm s) -> msorted f -> is_ok (snd (gm_step bp s (OStereo k f))) = true ->
  feat_view (k + 1) im1 (Some f) (i_gm (fst (gm_step bp s (OStereo k f)))) /\
  (im1 = None \/ idx_ok k = true) /\
  (forall x id, idx_ok x = true -> idx_ok id = true ->
    filter (is_pair x id) (map snd (creations s (OStereo k f))) =
    match mget id f, osee im1 id with
    | Some meas, Some p =>
        if x =? k then [stereo_factor k id meas]
        else if (x =? k - 1) && firstb im2 id then [stereo_factor (k - 1) id p] else []
    | _, _ => []
    end) /\
  (forall j, j <> k -> mentry j (g_ids (i_gm (fst (gm_step bp s (OStereo k f))))) = mentry j (g_ids (i_gm s))) /\
  exists new, mentry k (g_ids (i_gm (fst (gm_step bp s (OStereo k f))))) = mentry k (g_ids (i_gm s)) ++ new /\
    NoDup new /\
    forall id, In id new <-> mget id f <> None /\ osee im1 id <> None /\ osee im2 id = None.
Proof.
  intros I (rest & E & Hn & Hlt) Sf Hok. pose proof (inv_gm _ I) as Ig.
  simpl gm_step in *. unfold lift in *. gsimp.
  assert (Hok': snd (gm_create_stereo bp k f (i_gm s)) = Ok tt).
  { destruct (gm_create_stereo bp k f (i_gm s)) as [g' [[]| |]]; simpl in *; congruence. }
  assert (NU: snd (gm_create_stereo bp k f (i_gm s)) <> UB) by congruence.
  destruct (gm_create_stereo_exact bp k f (i_gm s) Ig NU) as (_&_&_&Hids&_&_&_&_&_&Hfeat).
  assert (Hm: mmem k (g_feat (i_gm s)) = false).
  { unfold gm_create_stereo in Hok'. destruct (mmem k (g_feat (i_gm s))); [discriminate|reflexivity]. }
  rewrite Hm in Hfeat.
  assert (Hnew: forall j, j <> k -> mentry j (g_ids (fst (gm_create_stereo bp k f (i_gm s)))) = mentry j (g_ids (i_gm s))).
  { intros j Hj. rewrite Hids, mentry_push_all by (destruct Ig; auto). destruct (Z.eqb_spec j k); [lia|]. reflexivity. }
  split; [apply (feat_view_next k im2 im1 f (i_gm s)); auto; exists rest; auto|].
  pose proof Hfeat as Hfeat2. rewrite mput_last in Hfeat2 by (destruct Ig; auto).
  assert (Hrev: rev (mput k f (g_feat (i_gm s))) = (k, f) :: rev (g_feat (i_gm s))).
  { rewrite mput_last by (destruct Ig; auto). rewrite rev_app_distr. reflexivity. }
  destruct im1 as [f1|].
  - rewrite E in Hrev.
    destruct (stereo_ok_all k f (i_gm s) k f (k - 1) f1 _ Ig Hok' Hrev) as (_ & Hk & _ & Hall & Hdone & _).
    set (im2' := match match im2 with Some f2 => (k - 2, f2) :: rest | None => [] end with [] => None | (_, f2) :: _ => Some f2 end) in *.
    assert (Him2: im2' = im2) by (subst im2'; destruct im2; reflexivity). rewrite Him2 in *.
    split; [auto|]. split; [|split; [exact Hnew|]].
    + intros x id Hx Hid. unfold creations. rewrite map_map. simpl snd. rewrite map_id. rewrite Hdone.
      rewrite frame_pairs by auto. reflexivity.
    + exists (map t_id (filter t_first (tracks_of f f1 im2))). split; [|split].
      * rewrite Hids, mentry_push_all by (destruct Ig; auto). rewrite Z.eqb_refl, Hdone. reflexivity.
      * apply NoDup_map_filter. apply tracks_nodup. auto.
      * intros id. rewrite frame_firsts. unfold firstb.
        assert (Hkey: In id (mkeys f) <-> mget id f <> None).
        { split; [intros H; apply mmem_true, mmem_mget in H; destruct H as [v ->]; discriminate|].
          destruct (mget id f) eqn:Eg; [intros _; eapply mget_key_In; eauto|congruence]. }
        rewrite Hkey. simpl osee. destruct (osee im2 id); simpl; intuition discriminate.
  - assert (Hdone: stereo_done k f (i_gm s) = []).
    { unfold stereo_done. rewrite Hm, Hrev, E. reflexivity. }
    split; [auto|]. split; [|split; [exact Hnew|]].
    + intros x id _ _. unfold creations. rewrite Hdone. simpl. destruct (mget id f); reflexivity.
    + exists []. split; [|split; [constructor|]].
      * rewrite Hids, mentry_push_all by (destruct Ig; auto). rewrite Z.eqb_refl, Hdone. reflexivity.
      * intros id. simpl. split; [tauto|]. intros (_ & H & _). congruence.
Qed.

Lemma pairs_run ops : forall s k im2 im1 frames,
  igm_inv s -> feat_view k im2 im1 (i_gm s) -> Forall msorted frames ->
  stereo_calls ops = number k frames -> stereo_ok s ops ->
  forall x id, idx_ok x = true -> idx_ok id = true ->
  let v j := view k im2 im1 frames j id in
  filter (is_pair x id) (map snd (run_creations bp s ops)) =
  if k <=? x then
    match v x with
    | Some meas => if issome (v (x - 1)) || issome (v (x + 1)) then [stereo_factor x id meas] else []
    | None => [] end
  else if x =? k - 1 then
    match v x with
    | Some meas => if negb (issome (v (x - 1))) && issome (v (x + 1)) then [stereo_factor x id meas] else []
    | None => [] end
  else [].
Proof.
  induction ops as [|op ops IH]; intros s k im2 im1 frames I Hv HF Hc Hok x id Hx Hid.
  - simpl in *. destruct frames; [|discriminate].
    assert (Hnone: forall j, k <= j -> view k im2 im1 [] j id = None).
    { intros j Hj. unfold view. destruct (Z.eqb_spec j (k - 2)); [lia|]. destruct (Z.eqb_spec j (k - 1)); [lia|].
      unfold seen. destruct (j <? k); [reflexivity|]. destruct (Z.to_nat (j - k)); reflexivity. }
    destruct (Z.leb_spec k x).
    + rewrite Hnone by auto. reflexivity.
    + destruct (Z.eqb_spec x (k - 1)); [|reflexivity]. rewrite (Hnone (x + 1)) by lia. rewrite andb_false_r.
      destruct (view k im2 im1 [] x id); reflexivity.
  - cbn [run_creations stereo_ok] in *. destruct Hok as [Hok1 Hok]. rewrite map_app, filter_app.
    assert (D: (exists kk f, op = OStereo kk f) \/ (forall kk f, op <> OStereo kk f)).
    { destruct op; try (right; intros; discriminate). left; eauto. }
    destruct D as [(kk & f & ->)|Hns].
    + destruct frames as [|f' frames]; [discriminate|]. simpl in Hc. injection Hc as Ek Ef Hc'. subst kk f'.
      assert (H1 : msorted f) by (inversion HF; assumption).
      assert (H2 : Forall msorted frames) by (inversion HF; assumption).
      destruct (stereo_step k f im2 im1 s I Hv H1 Hok1) as (Hv' & _ & Hp & _).
      rewrite Hp by auto. rewrite (IH _ (k + 1) im1 (Some f) frames (gm_step_inv bp s _ I) Hv' H2 Hc' Hok x id Hx Hid).
      clear IH Hp.
      destruct (Z.leb_spec (k + 1) x).
      * (* later pose *)
        rewrite !(view_next k im2 im1) by lia. destruct (Z.leb_spec k x); [|lia].
        destruct (Z.eqb_spec x k); [lia|]. destruct (Z.eqb_spec x (k - 1)); [lia|].
        simpl. destruct (mget id f), (osee im1 id); reflexivity.
      * destruct (Z.eqb_spec x (k + 1 - 1)).
        -- (* the pose of this frame *)
           assert (Exk: x = k) by lia. rewrite Exk in Hx |- *. rewrite !(view_next k im2 im1) by lia.
           rewrite Z.leb_refl, Z.eqb_refl.
           assert (Vk: view k im2 im1 (f :: frames) k id = mget id f).
           { unfold view. destruct (Z.eqb_spec k (k - 2)); [lia|]. destruct (Z.eqb_spec k (k - 1)); [lia|]. apply seen_head. }
           assert (Vp: view k im2 im1 (f :: frames) (k - 1) id = osee im1 id).
           { unfold view. destruct (Z.eqb_spec (k - 1) (k - 2)); [lia|]. rewrite Z.eqb_refl. reflexivity. }
           rewrite Vk, Vp. destruct (mget id f) as [meas|]; [|reflexivity]. destruct (osee im1 id); simpl;
           destruct (view k im2 im1 (f :: frames) (k + 1) id); reflexivity.
        -- destruct (Z.leb_spec k x); [lia|]. rewrite app_nil_r.
           destruct (Z.eqb_spec x k); [lia|]. destruct (Z.eqb_spec x (k - 1)) as [->|]; simpl.
           ++ assert (Vk: view k im2 im1 (f :: frames) (k - 1 + 1) id = mget id f).
              { replace (k - 1 + 1) with k by lia. unfold view. destruct (Z.eqb_spec k (k - 2)); [lia|].
                destruct (Z.eqb_spec k (k - 1)); [lia|]. apply seen_head. }
              assert (Vp: view k im2 im1 (f :: frames) (k - 1) id = osee im1 id).
              { unfold view. destruct (Z.eqb_spec (k - 1) (k - 2)); [lia|]. rewrite Z.eqb_refl. reflexivity. }
              assert (Vq: view k im2 im1 (f :: frames) (k - 1 - 1) id = osee im2 id).
              { unfold view. destruct (Z.eqb_spec (k - 1 - 1) (k - 2)); [reflexivity|lia]. }
              rewrite Vk, Vp, Vq. unfold firstb. destruct (mget id f), (osee im1 id), (osee im2 id); reflexivity.
           ++ destruct (mget id f), (osee im1 id); reflexivity.
    + rewrite (non_stereo_calls op ops Hns) in Hc.
      destruct (non_stereo s op I Hns) as (Hf & _ & Hcr). rewrite Hcr. simpl app.
      apply IH; auto using gm_step_inv.
      * destruct Hv as (rest & E & A & B). exists rest. rewrite Hf. auto.
Qed.

Lemma ids_run ops : forall s k im2 im1 frames,
  igm_inv s -> feat_view k im2 im1 (i_gm s) -> Forall msorted frames ->
  (forall j, k <= j -> mentry j (g_ids (i_gm s)) = []) ->
  stereo_calls ops = number k frames -> stereo_ok s ops ->
  forall j, k <= j ->
  NoDup (mentry j (g_ids (i_gm (gm_run bp s ops)))) /\
  forall id, (In id (mentry j (g_ids (i_gm (gm_run bp s ops)))) <->
              view k im2 im1 frames j id <> None /\ view k im2 im1 frames (j - 1) id <> None /\
              view k im2 im1 frames (j - 2) id = None).
Proof.
  induction ops as [|op ops IH]; intros s k im2 im1 frames I Hv HF Hemp Hc Hok j Hj.
  - simpl in *. destruct frames; [|discriminate]. rewrite Hemp by auto. split; [constructor|]. intros id.
    assert (Hnone: view k im2 im1 [] j id = None).
    { unfold view. destruct (Z.eqb_spec j (k - 2)); [lia|]. destruct (Z.eqb_spec j (k - 1)); [lia|].
      unfold seen. destruct (j <? k); [reflexivity|]. destruct (Z.to_nat (j - k)); reflexivity. }
    rewrite Hnone. simpl. intuition congruence.
  - cbn [gm_run stereo_ok] in *. destruct Hok as [Hok1 Hok].
    assert (D: (exists kk f, op = OStereo kk f) \/ (forall kk f, op <> OStereo kk f)).
    { destruct op; try (right; intros; discriminate). left; eauto. }
    destruct D as [(kk & f & ->)|Hns].
    + destruct frames as [|f' frames]; [discriminate|]. simpl in Hc. injection Hc as Ek Ef Hc'. subst kk f'.
      assert (H1 : msorted f) by (inversion HF; assumption).
      assert (H2 : Forall msorted frames) by (inversion HF; assumption).
      destruct (stereo_step k f im2 im1 s I Hv H1 Hok1) as (Hv' & _ & _ & Hother & new & Hnew & ND & Hin).
      assert (Hemp': forall j0, k + 1 <= j0 -> mentry j0 (g_ids (i_gm (fst (gm_step bp s (OStereo k f))))) = []).
      { intros j0 Hj0. rewrite Hother by lia. apply Hemp. lia. }
      destruct (Z.leb_spec (k + 1) j) as [Hl|Hl].
      * destruct (IH _ (k + 1) im1 (Some f) frames (gm_step_inv bp s _ I) Hv' H2 Hemp' Hc' Hok j Hl) as [A B].
        split; [exact A|]. intros id. rewrite B. rewrite !(view_next k im2 im1) by lia. tauto.
      * assert (j = k) by lia. subst j.
        (* entries at k are not touched afterwards *)
        assert (Hfix: forall ops s k2, igm_inv s -> stereo_ok s ops ->
            (forall kk ff, In (kk, ff) (stereo_calls ops) -> k2 < kk) ->
            mentry k2 (g_ids (i_gm (gm_run bp s ops))) = mentry k2 (g_ids (i_gm s))).
        { clear. induction ops as [|op ops IH]; intros s k2 I Hok Hk; [reflexivity|]. cbn [gm_run stereo_ok] in *.
          destruct Hok as [Hok1 Hok].
          assert (D: (exists kk f, op = OStereo kk f) \/ (forall kk f, op <> OStereo kk f)).
          { destruct op; try (right; intros; discriminate). left; eauto. }
          destruct D as [(kk & f & ->)|Hns].
          - rewrite IH; auto using gm_step_inv; [|intros; apply (Hk kk0 ff); right; auto].
            simpl gm_step in *. unfold lift in *. gsimp.
            assert (NU: snd (gm_create_stereo bp kk f (i_gm s)) <> UB).
            { destruct (gm_create_stereo bp kk f (i_gm s)) as [g' [[]| |]]; simpl in *; congruence. }
            destruct (gm_create_stereo_exact bp kk f (i_gm s) (inv_gm _ I) NU) as (_&_&_&Hids&_).
            rewrite Hids, mentry_push_all by (destruct (inv_gm _ I); auto).
            pose proof (Hk kk f (or_introl eq_refl)). destruct (Z.eqb_spec k2 kk); [lia|reflexivity].
          - rewrite IH; auto using gm_step_inv.
            + destruct (non_stereo s op I Hns) as (_ & Hi & _). destruct (Hi k2) as [-> _]. reflexivity.
            + rewrite (non_stereo_calls op ops Hns) in Hk. exact Hk. }
        assert (Hgt: forall kk ff, In (kk, ff) (number (k + 1) frames) -> k < kk).
        { clear. intros kk ff. assert (G: forall kk0, k < kk0 -> In (kk, ff) (number kk0 frames) -> k < kk).
          { induction frames as [|f fs IH]; simpl; [intros; contradiction|]. intros kk0 H0 [H|H]; [inversion H; subst; auto|].
            apply (IH (kk0 + 1)); [lia|exact H]. }
          apply G. lia. }
        rewrite Hfix; auto using gm_step_inv; [|intros kk ff HH; rewrite Hc' in HH; eauto].
        rewrite Hnew, Hemp by lia. simpl app. split; [exact ND|]. intros id. rewrite Hin.
        assert (Vk: view k im2 im1 (f :: frames) k id = mget id f).
        { unfold view. destruct (Z.eqb_spec k (k - 2)); [lia|]. destruct (Z.eqb_spec k (k - 1)); [lia|]. apply seen_head. }
        assert (Vp: view k im2 im1 (f :: frames) (k - 1) id = osee im1 id).
        { unfold view. destruct (Z.eqb_spec (k - 1) (k - 2)); [lia|]. rewrite Z.eqb_refl. reflexivity. }
        assert (Vq: view k im2 im1 (f :: frames) (k - 2) id = osee im2 id).
        { unfold view. rewrite Z.eqb_refl. reflexivity. }
        rewrite Vk, Vp, Vq. tauto.
    + rewrite (non_stereo_calls op ops Hns) in Hc.
      destruct (non_stereo s op I Hns) as (Hf & Hi & _).
      apply IH; auto using gm_step_inv.
      * destruct Hv as (rest & E & A & B). exists rest. rewrite Hf. auto.
      * intros j0 Hj0. destruct (Hi j0) as [-> _]. auto.
Qed.

Lemma feat_view_init k : feat_view k None None (i_gm igm_init).
Proof. exists []. split; [reflexivity|]. split; [auto|]. intros j []. Qed.

(* ---------------- C10 ---------------- *)
Lemma stereo_pairs ops k0 frames x id :
  stereo_calls ops = number k0 frames -> Forall msorted frames -> stereo_ok igm_init ops ->
  k0 <= x -> idx_ok x = true -> idx_ok id = true ->
  filter (is_pair x id) (map snd (run_creations bp igm_init ops)) =
  match seen k0 frames x id with
  | Some meas => if issome (seen k0 frames (x - 1) id) || issome (seen k0 frames (x + 1) id)
                 then [stereo_factor x id meas] else []
  | None => []
  end.
Proof.
  intros Hc HF Hok Hx Hxo Hid.
  rewrite (pairs_run ops igm_init k0 None None frames igm_init_inv (feat_view_init k0) HF Hc Hok x id Hxo Hid).
  rewrite !view_start. destruct (Z.leb_spec k0 x); [reflexivity|lia].
Qed.

(* an id is not seen again after having been lost *)
Definition never_reacquired (k0 : Z) (frames : list (omap Z)) : Prop :=
  forall id i j l, i < j -> j < l -> seen k0 frames i id <> None -> seen k0 frames l id <> None ->
                   seen k0 frames j id <> None.

Lemma landmark_listed ops k0 frames j id :
  stereo_calls ops = number k0 frames -> Forall msorted frames -> stereo_ok igm_init ops -> k0 <= j ->
  NoDup (mentry j (g_ids (i_gm (gm_run bp igm_init ops)))) /\
  (In id (mentry j (g_ids (i_gm (gm_run bp igm_init ops)))) <->
   seen k0 frames j id <> None /\ seen k0 frames (j - 1) id <> None /\ seen k0 frames (j - 2) id = None).
Proof.
  intros Hc HF Hok Hj.
  destruct (ids_run ops igm_init k0 None None frames igm_init_inv (feat_view_init k0) HF ltac:(reflexivity) Hc Hok j Hj) as [A B].
  split; [exact A|]. rewrite B, !view_start. tauto.
Qed.

Lemma landmark_listed_once ops k0 frames j j' id :
  stereo_calls ops = number k0 frames -> Forall msorted frames -> stereo_ok igm_init ops ->
  never_reacquired k0 frames -> k0 <= j -> k0 <= j' ->
  In id (mentry j (g_ids (i_gm (gm_run bp igm_init ops)))) ->
  In id (mentry j' (g_ids (i_gm (gm_run bp igm_init ops)))) -> j = j'.
Proof.
  intros Hc HF Hok NR Hj Hj' H1 H2.
  apply (landmark_listed ops k0 frames j id Hc HF Hok Hj) in H1.
  apply (landmark_listed ops k0 frames j' id Hc HF Hok Hj') in H2.
  destruct H1 as (A1 & A2 & A3), H2 as (B1 & B2 & B3).
  destruct (Z.lt_trichotomy j j') as [L|[L|L]]; [|auto|]; exfalso.
  - (* seen at j-1, seen at j'; not seen at j'-2 >= j-1 *)
    destruct (Z.eq_dec (j' - 2) (j - 1)) as [E|E]; [rewrite E in B3; congruence|].
    apply (NR id (j - 1) (j' - 2) (j' - 1)); auto; lia.
  - destruct (Z.eq_dec (j - 2) (j' - 1)) as [E|E]; [rewrite E in A3; congruence|].
    apply (NR id (j' - 1) (j - 2) (j - 1)); auto; lia.
Qed.

(* right after a stereo call the landmark of every tracked id is the back-projection of its observation
   from the pose at that key; other landmarks keep their value *)
Lemma landmark_value ops k0 frames f :
  let k := k0 + Z.of_nat (List.length frames) in
  let s := gm_run bp igm_init ops in
  let s' := fst (gm_step bp s (OStereo k f)) in
  stereo_calls ops = number k0 frames -> Forall msorted frames -> msorted f -> stereo_ok igm_init ops ->
  is_ok (snd (gm_step bp s (OStereo k f))) = true ->
  forall id, idx_ok id = true ->
  match mget id f, seen k0 frames (k - 1) id with
  | Some meas, Some _ =>
      exists p c kal, gm_get SymX k (i_gm s') = Ok p /\ g_cam (i_gm s') = Some c /\ g_calib (i_gm s') = Some kal /\
        gm_get SymS id (i_gm s') = Ok (bp p c kal meas)
  | _, _ => gm_get SymS id (i_gm s') = gm_get SymS id (i_gm s)
  end.
Proof.
  intros k s s' Hc HF Sf Hok Hokk id Hid.
  assert (Hview: forall ops s k im2 im1 frames, igm_inv s -> feat_view k im2 im1 (i_gm s) -> Forall msorted frames ->
     stereo_calls ops = number k frames -> stereo_ok s ops ->
     exists im2' im1', feat_view (k + Z.of_nat (List.length frames)) im2' im1' (i_gm (gm_run bp s ops)) /\
        forall id, osee im1' id = view k im2 im1 frames (k + Z.of_nat (List.length frames) - 1) id).
  { clear. induction ops as [|op ops IH]; intros s k im2 im1 frames I Hv HF Hc Hok.
    - simpl in *. destruct frames; [|discriminate]. exists im2, im1. simpl. rewrite Z.add_0_r. split; [exact Hv|].
      intros id. unfold view. destruct (Z.eqb_spec (k - 1) (k - 2)); [lia|]. rewrite Z.eqb_refl. reflexivity.
    - cbn [gm_run stereo_ok] in *. destruct Hok as [Hok1 Hok].
      assert (D: (exists kk f, op = OStereo kk f) \/ (forall kk f, op <> OStereo kk f)).
      { destruct op; try (right; intros; discriminate). left; eauto. }
      destruct D as [(kk & f & ->)|Hns].
      + destruct frames as [|f' frames]; [discriminate|]. simpl in Hc. injection Hc as Ek Ef Hc'. subst kk f'.
      assert (H1 : msorted f) by (inversion HF; assumption).
      assert (H2 : Forall msorted frames) by (inversion HF; assumption).
        destruct (stereo_step k f im2 im1 s I Hv H1 Hok1) as (Hv' & _).
        destruct (IH _ (k + 1) im1 (Some f) frames (gm_step_inv bp s _ I) Hv' H2 Hc' Hok) as (a & b & A & B).
        exists a, b. simpl List.length. replace (k + Z.of_nat (S (List.length frames))) with (k + 1 + Z.of_nat (List.length frames)) by lia.
        split; [exact A|]. intros id. rewrite B. apply view_next. lia.
      + rewrite (non_stereo_calls op ops Hns) in Hc.
        destruct (non_stereo s op I Hns) as (Hf & _). apply IH; auto using gm_step_inv.
        destruct Hv as (rest & E & A & B). exists rest. rewrite Hf. auto. }
  destruct (Hview ops igm_init k0 None None frames igm_init_inv (feat_view_init k0) HF Hc Hok) as (im2 & im1 & Hv & Him).
  fold k s in Hv. fold k in Him. specialize (Him id). rewrite view_start in Him.
  assert (I: igm_inv s) by (apply gm_run_inv, igm_init_inv). pose proof (inv_gm _ I) as Ig.
  simpl gm_step in *. unfold lift in *. gsimp.
  assert (Hok': snd (gm_create_stereo bp k f (i_gm s)) = Ok tt).
  { destruct (gm_create_stereo bp k f (i_gm s)) as [g' [[]| |]]; simpl in *; congruence. }
  assert (NU: snd (gm_create_stereo bp k f (i_gm s)) <> UB) by congruence.
  destruct (gm_create_stereo_exact bp k f (i_gm s) Ig NU) as (Hval&_&_&_&_&_&_&Hcal&Hcam&Hfeat).
  assert (Hm: mmem k (g_feat (i_gm s)) = false).
  { unfold gm_create_stereo in Hok'. destruct (mmem k (g_feat (i_gm s))); [discriminate|reflexivity]. }
  destruct Hv as (rest & E & Hn & Hlt).
  assert (Hrev: rev (mput k f (g_feat (i_gm s))) = (k, f) :: rev (g_feat (i_gm s))).
  { rewrite mput_last by (destruct Ig; auto). rewrite rev_app_distr. reflexivity. }
  subst s'. gsimp. set (g' := fst (gm_create_stereo bp k f (i_gm s))) in *.
  unfold gm_get, sym_key. rewrite Hid. rewrite <- Him.
  destruct im1 as [f1|]; cycle 1.
  { simpl osee. assert (Hd: stereo_done k f (i_gm s) = []) by (unfold stereo_done; rewrite Hm, Hrev, E; reflexivity).
    assert (Ew: g_val g' = g_val (i_gm s)).
    { rewrite Hval. unfold stereo_writes. rewrite Hd. destruct (mget (raw SymX k) (g_val (i_gm s))), (g_cam (i_gm s)), (g_calib (i_gm s)); reflexivity. }
    rewrite Ew. destruct (mget id f); reflexivity. }
  rewrite E in Hrev. simpl osee.
  destruct (stereo_ok_all k f (i_gm s) k f (k - 1) f1 _ Ig Hok' Hrev) as (_ & Hk & (p & c & Hp & Hcm) & Hall & Hdone & Hkal).
  set (im2' := match match im2 with Some f2 => (k - 2, f2) :: rest | None => [] end with [] => None | (_, f2) :: _ => Some f2 end) in *.
  assert (Hlw: forall kal, last_write (raw SymS id) (map (fun t => (raw SymS (t_id t), bp p c kal (t_meas t))) (tracks_of f f1 im2')) =
     match mget id f, mget id f1 with Some meas, Some _ => Some (bp p c kal meas) | _, _ => None end).
  { intros kal. clear -Sf Hid Hall. induction f as [|[i meas] f IH]; [reflexivity|]. destruct Sf as [L S].
    assert (Hnot: mget i f = None).
    { destruct (mget i f) eqn:Eg; [|reflexivity]. apply mget_key_In in Eg. apply L in Eg. lia. }
    simpl tracks_of in *. simpl mget. destruct (mget i f1) as [p1|] eqn:Hp1.
    - simpl in Hall. apply andb_prop in Hall. destruct Hall as [Ht Hall]. unfold track_ok in Ht. simpl in Ht.
      apply andb_prop in Ht. destruct Ht as [Hi _]. specialize (IH S Hall).
      cbn [map app]. cbn [last_write]. fold (tracks_of f f1 im2'). rewrite IH. cbn [t_id t_meas]. rewrite raw_eqb by auto.
      destruct (Z.eqb_spec id i) as [->|].
      + rewrite Hnot, Hp1. reflexivity.
      + destruct (mget id f), (mget id f1); reflexivity.
    - simpl in *. rewrite IH by auto. destruct (Z.eqb_spec id i) as [->|]; [|reflexivity]. rewrite Hnot, Hp1. reflexivity. }
  assert (Hposek: mget (raw SymX k) (g_val g') = Some p).
  { rewrite Hval, mget_apply_writes. unfold stereo_writes. rewrite Hp, Hcm, Hdone. destruct (g_calib (i_gm s)) as [kal|]; [|reflexivity].
    destruct (last_write (raw SymX k) (map (fun t => (raw SymS (t_id t), bp p c kal (t_meas t))) (tracks_of f f1 im2'))) eqn:El; [|reflexivity].
    exfalso. assert (Hin: In (raw SymX k) (map fst (map (fun t => (raw SymS (t_id t), bp p c kal (t_meas t))) (tracks_of f f1 im2')))).
    { destruct (in_dec Z.eq_dec (raw SymX k) (map fst (map (fun t => (raw SymS (t_id t), bp p c kal (t_meas t))) (tracks_of f f1 im2')))) as [|Hx]; [auto|].
      apply last_write_None in Hx. congruence. }
    rewrite map_map in Hin. simpl in Hin. apply in_map_iff in Hin. destruct Hin as (t & Et & Hin).
    rewrite forallb_forall in Hall. specialize (Hall t Hin). unfold track_ok in Hall. apply andb_prop in Hall.
    destruct Hall as [Hi _]. apply raw_inj in Et; auto. destruct Et. discriminate. }
  rewrite Hk, Hposek, Hcam, Hcal.
  rewrite Hval, mget_apply_writes. unfold stereo_writes. rewrite Hp, Hcm, Hdone.
  destruct Hkal as [Hnil|[kal Hkal]].
  - rewrite Hnil. specialize (Hlw 0). rewrite Hnil in Hlw. simpl in Hlw. destruct (g_calib (i_gm s)); simpl;
    destruct (mget id f) as [meas|]; auto; destruct (mget id f1); auto; discriminate.
  - rewrite Hkal, Hlw. destruct (mget id f) as [meas|]; [|reflexivity].
    destruct (mget id f1); [|reflexivity]. exists p, c, kal. auto.
Qed.

(* ---------------- C11 ---------------- *)
(* a new frame at k, the last stereo frame at j < k: an id seen in both and not in the frame before j *)
Lemma gap_attaches_previous_pose k f g j f1 rest id meas p :
  gm_inv g -> msorted f -> snd (gm_create_stereo bp k f g) = Ok tt ->
  rev (g_feat g) = (j, f1) :: rest -> j < k -> idx_ok j = true -> idx_ok id = true ->
  mget id f = Some meas -> mget id f1 = Some p ->
  match rest with [] => True | (_, f2) :: _ => mget id f2 = None end ->
  let new := flat_map (track_factors k) (stereo_done k f g) in
  filter (is_pair (k - 1) id) new = [stereo_factor (k - 1) id p] /\
  (filter (is_pair j id) new = [stereo_factor j id p] <-> j = k - 1).
Proof.
  intros I Sf Hok E Hj Hjo Hid Hf Hf1 Hr. cbv zeta.
  assert (Hlt: forall i, In i (mkeys (g_feat g)) -> i < k).
  { intros i Hi. assert (Hs: msorted (g_feat g)) by (destruct I; auto).
    assert (Hle: forall i, In i (mkeys (g_feat g)) -> i <= j).
    { clear -E Hs. assert (Hg: g_feat g = rev rest ++ [(j, f1)]) by (rewrite <- (rev_involutive (g_feat g)), E; reflexivity).
      rewrite Hg in *. intros i Hi. unfold mkeys in Hi.
      rewrite map_app, in_app_iff in Hi. simpl in Hi. destruct Hi as [Hi|[<-|[]]]; [|lia].
      assert (i < j); [|lia]. revert Hs Hi. generalize (rev rest). induction l as [|[a b] l IH]; simpl; [tauto|].
      intros [L S] [<-|Hi].
      - apply L. unfold mkeys. rewrite map_app, in_app_iff. right. left. reflexivity.
      - apply IH; auto. }
    specialize (Hle i Hi). lia. }
  assert (Hrev: rev (mput k f (g_feat g)) = (k, f) :: (j, f1) :: rest).
  { rewrite mput_last by (destruct I; auto). rewrite rev_app_distr, E. reflexivity. }
  destruct (stereo_ok_all k f g k f j f1 rest I Hok Hrev) as (_ & Hk & _ & Hall & Hdone & _).
  set (im2 := match rest with [] => None | (_, f2) :: _ => Some f2 end) in *.
  assert (Hfb: firstb im2 id = true).
  { unfold firstb. subst im2. destruct rest as [|[a f2] rest']; [reflexivity|]. simpl. rewrite Hr. reflexivity. }
  assert (Hk1: idx_ok (k - 1) = true) by (unfold idx_ok in *; lia).
  rewrite Hdone. rewrite !frame_pairs by auto. rewrite Hf, Hf1, Hfb.
  destruct (Z.eqb_spec (k - 1) k); [lia|]. rewrite Z.eqb_refl. simpl. split; [reflexivity|].
  destruct (Z.eqb_spec j k); [lia|]. destruct (Z.eqb_spec j (k - 1)) as [->|Hne]; simpl.
  - split; auto.
  - split; [discriminate|lia].
Qed.

(* ---------------- C12 ---------------- *)
Lemma missing_pose_fails k f s :
  igm_inv s -> g_feat (i_gm s) <> [] -> mmem k (g_feat (i_gm s)) = false ->
  gm_has SymX k (i_gm s) <> Ok true ->
  snd (gm_step bp s (OStereo k f)) = Throw /\
  g_val (i_gm (fst (gm_step bp s (OStereo k f)))) = g_val (i_gm s) /\
  mmem k (g_feat (i_gm (fst (gm_step bp s (OStereo k f))))) = true.
Proof.
  intros I Hne Hm Hp. pose proof (inv_gm _ I) as Ig. simpl. unfold lift, gm_create_stereo. rewrite Hm.
  set (g2 := with_fac _ _ _). change (g_feat g2) with (mput k f (g_feat (i_gm s))).
  assert (Hlen: exists a b l, rev (mput k f (g_feat (i_gm s))) = a :: b :: l).
  { assert (L: (1 < List.length (rev (mput k f (g_feat (i_gm s)))))%nat).
    { rewrite rev_length. destruct (g_feat (i_gm s)) as [|e m]; [congruence|]. destruct e as [k' a'].
      simpl in *. destruct (Z.eqb_spec k k'); [subst; unfold mmem in Hm; simpl in Hm; rewrite Z.eqb_refl in Hm; discriminate|].
      destruct (k <? k'); simpl; [lia|]. destruct (mput k f m) eqn:E; [|simpl; lia].
      destruct m as [|[k2 a2] m]; simpl in E; [discriminate|]. destruct (k =? k2); [discriminate|]. destruct (k <? k2); discriminate. }
    destruct (rev (mput k f (g_feat (i_gm s)))) as [|a [|b l]]; simpl in L; try lia. eauto. }
  destruct Hlen as ([k1 fi] & [k2 im1] & l & E). rewrite E.
  assert (Hg: gm_has SymX k g2 = gm_has SymX k (i_gm s)) by reflexivity.
  destruct (gm_has SymX k g2) as [[|]| |] eqn:Eh; rewrite <- Hg in Hp; try congruence; cbn [fst snd obs_of]; gsimp;
    (split; [reflexivity|]; split; [reflexivity|]; unfold mmem; change (g_feat g2) with (mput k f (g_feat (i_gm s)));
     rewrite mget_mput_eq by (destruct Ig; auto); reflexivity).
Qed.

Lemma feat_kept s op k : igm_inv s -> mmem k (g_feat (i_gm s)) = true -> mmem k (g_feat (i_gm (fst (gm_step bp s op)))) = true.
Proof.
  intros I H. assert (D: (exists kk f, op = OStereo kk f) \/ (forall kk f, op <> OStereo kk f)).
  { destruct op; try (right; intros; discriminate). left; eauto. }
  destruct D as [(kk & f & ->)|Hns].
  - simpl. unfold lift, gm_create_stereo. destruct (mmem kk (g_feat (i_gm s))) eqn:Hm; [exact H|]. gsimp.
    assert (Hx: forall g, g_feat g = mput kk f (g_feat (i_gm s)) -> mmem k (g_feat g) = true).
    { intros g ->. unfold mmem in *. rewrite mget_mput by (destruct (inv_gm _ I); auto). destruct (k =? kk); [reflexivity|exact H]. }
    set (g2 := with_fac _ _ _). assert (E2: g_feat g2 = mput kk f (g_feat (i_gm s))) by reflexivity. rewrite <- E2.
    destruct (rev (g_feat g2)) as [|[k1 fi] [|[k2 im1] rest]]; cbn [fst]; auto.
    destruct (gm_has SymX kk g2) as [[|]| |]; cbn [fst]; auto.
    destruct (gm_get SymX kk g2); cbn [fst]; auto. destruct (g_cam (i_gm s)); cbn [fst]; auto.
    apply Hx. rewrite <- E2. 
    set (g3 := with_ids _ _ g2). assert (E3: g_feat g3 = g_feat g2) by reflexivity. rewrite <- E3. clearbody g3.
    clear. revert g3. induction fi as [|[id meas] fi IH]; intros g; [reflexivity|]. cbn [stereo_features_loop].
    match goal with |- context [stereo_feature bp ?a ?b ?c ?d ?e ?f ?m ?x] =>
      pose proof (stereo_feature_frame bp g_feat ltac:(reflexivity) ltac:(reflexivity) ltac:(reflexivity) ltac:(reflexivity) a b c d e f m x) as X;
      destruct (stereo_feature bp a b c d e f m x) as [g1 [u| |]] end; cbn [fst] in *; auto. rewrite IH. exact X.
  - destruct (non_stereo s op I Hns) as (-> & _). exact H.
Qed.

Lemma retry_fails ops s k f :
  igm_inv s -> mmem k (g_feat (i_gm s)) = true ->
  let s' := gm_run bp s ops in gm_step bp s' (OStereo k f) = (s', Throw).
Proof.
  revert s. induction ops as [|op ops IH]; intros s I H.
  - simpl. unfold lift, gm_create_stereo. rewrite H. simpl. destruct s; reflexivity.
  - cbn [gm_run]. apply IH; auto using gm_step_inv, feat_kept.
Qed.
End Stereo.
