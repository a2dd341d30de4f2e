(* Minimum key (C07), named keys (C08), timestamps (C09). *)
From Verif Require Import Base GmModel GmSpec GmInv GmProofs GmFactors GmValues GmHist.

(* ---------------- C07 ---------------- *)
Lemma min_fold p m acc :
  (forall e, In e m -> fst (snd e) <= int_max) ->
  let r := fold_left (fun acc e => let '(_, (k, pr)) := (e : string * (Z * Z)) in
                          if pr <=? p then (true, Z.min (snd acc) k) else acc) m acc in
  snd r <= snd acc /\
  (forall n k pr, In (n, (k, pr)) m -> pr <= p -> fst r = true /\ snd r <= k) /\
  (fst acc = true -> fst r = true) /\
  ((fst r = fst acc /\ snd r = snd acc) \/
   (fst r = true /\ (snd r = snd acc \/ exists n pr, In (n, (snd r, pr)) m /\ pr <= p))) /\
  ((forall n k pr, In (n, (k, pr)) m -> p < pr) -> r = acc).
Proof.
  revert acc. induction m as [|[n [k pr]] m IH]; intros acc Hb; cbn [fold_left].
  - repeat split; auto; try lia; intros; contradiction.
  - assert (Hb': forall e, In e m -> fst (snd e) <= int_max) by (intros; apply Hb; right; auto).
    cbv zeta. destruct (Z.leb_spec pr p) as [Hp|Hp].
    + specialize (IH (true, Z.min (snd acc) k) Hb'). cbv zeta in IH.
      set (r := fold_left _ m _) in *. cbn [fst snd] in IH. destruct IH as (A & B & C & D & E).
      split; [lia|]. split; [|split; [|split]].
      * intros n' k' pr' [Heq|Hin] Hle; [inversion Heq; subst; split; [auto|lia]|eauto].
      * auto.
      * right. split; [auto|].
        destruct D as [[_ D]|[_ [D|(n' & pr' & Hin & Hle)]]].
        -- destruct (Z.min_spec (snd acc) k) as [[_ M]|[_ M]]; rewrite M in D; [auto|].
           right. exists n, pr. rewrite D. split; [left; reflexivity|lia].
        -- destruct (Z.min_spec (snd acc) k) as [[_ M]|[_ M]]; rewrite M in D; [auto|].
           right. exists n, pr. rewrite D. split; [left; reflexivity|lia].
        -- right. exists n', pr'. split; [right; auto|auto].
      * intros H. specialize (H n k pr (or_introl eq_refl)). lia.
    + specialize (IH acc Hb'). cbv zeta in IH. set (r := fold_left _ m _) in *.
      destruct IH as (A & B & C & D & E).
      split; [lia|]. split; [|split; [|split]]; auto.
      * intros n' k' pr' [Heq|Hin] Hle; [inversion Heq; subst; lia|eauto].
      * destruct D as [D|[D1 [D2|(n' & pr' & Hin & Hle)]]]; [auto|right; auto|right; split; auto].
        right. exists n', pr'. split; [right; auto|auto].
      * intros H. apply E. intros n' k' pr' Hin. apply (H n' k' pr'). right; auto.
Qed.

(* all named keys are C++ ints *)
Definition keys_int (g : gm) : Prop := forall n k p, sget n (g_keys g) = Some (k, p) -> k <= int_max.

Lemma keys_int_In g : NoDup (map fst (g_keys g)) -> keys_int g ->
  forall e, In e (g_keys g) -> fst (snd e) <= int_max.
Proof. intros ND H [n [k p]] Hin. simpl. apply (H n k p). apply In_sget; auto. Qed.

Lemma minimum_key_lower g p k : NoDup (map fst (g_keys g)) -> keys_int g -> gm_minimum_key p g = Ok k ->
  (forall n kn pn, sget n (g_keys g) = Some (kn, pn) -> pn <= p -> k <= kn) /\
  (exists n pn, sget n (g_keys g) = Some (k, pn) /\ pn <= p).
Proof.
  intros ND HK H. unfold gm_minimum_key in H. unfold min_key_loop in H.
  pose proof (min_fold p (g_keys g) (false, int_max) (keys_int_In g ND HK)) as F. cbv zeta in F.
  destruct (fold_left _ (g_keys g) (false, int_max)) as [found r]. cbn [fst snd] in F.
  destruct found; [|discriminate]. inversion H; subst r. destruct F as (A & B & _ & D & E). split.
  - intros n kn pn Hs Hp. apply sget_In in Hs. apply (B _ _ _ Hs Hp).
  - destruct D as [[D _]|[_ [D|(n & pn & Hin & Hp)]]]; [discriminate| |].
    + (* the minimum is INT_MAX itself *)
      destruct (existsb (fun e => snd (snd e) <=? p) (g_keys g)) eqn:Ex.
      * apply existsb_exists in Ex. destruct Ex as ([n [kn pn]] & Hin & Hp). simpl in Hp.
        assert (Hle: pn <= p) by lia. destruct (B _ _ _ Hin Hle) as [_ Hk].
        pose proof (keys_int_In g ND HK _ Hin) as Hm. simpl in Hm.
        exists n, pn. assert (kn = k) by lia. subst kn. split; [apply In_sget; auto|auto].
      * exfalso. assert (Hn: forall n k0 pr, In (n, (k0, pr)) (g_keys g) -> p < pr).
        { intros n k0 pr Hin. destruct (Z.ltb_spec p pr); [auto|]. exfalso.
          assert (existsb (fun e => snd (snd e) <=? p) (g_keys g) = true).
          { apply existsb_exists. exists (n, (k0, pr)). split; [auto|]. simpl. lia. }
          congruence. }
        specialize (E Hn). discriminate.
    + exists n, pn. split; [apply In_sget; auto|auto].
Qed.

Lemma minimum_key_throws g p : NoDup (map fst (g_keys g)) -> keys_int g ->
  (gm_minimum_key p g = Throw <-> forall n kn pn, sget n (g_keys g) = Some (kn, pn) -> p < pn).
Proof.
  intros ND HK. unfold gm_minimum_key, min_key_loop.
  pose proof (min_fold p (g_keys g) (false, int_max) (keys_int_In g ND HK)) as F. cbv zeta in F.
  destruct (fold_left _ (g_keys g) (false, int_max)) as [found r]. cbn [fst snd] in F.
  destruct F as (_ & B & _ & _ & E). split.
  - intros H n kn pn Hs. destruct (Z.ltb_spec p pn) as [|Hle]; [auto|]. apply sget_In in Hs.
    destruct (B _ _ _ Hs Hle) as [-> _]. discriminate.
  - intros H. assert (Hn: forall n k0 pr, In (n, (k0, pr)) (g_keys g) -> p < pr).
    { intros n k0 pr Hin. apply (H n k0 pr). apply In_sget; auto. }
    specialize (E Hn). inversion E. reflexivity.
Qed.

Lemma minimum_key_not_ub g p : gm_minimum_key p g <> UB.
Proof. unfold gm_minimum_key. destruct (min_key_loop p (g_keys g)) as [[|] r]; discriminate. Qed.

Lemma minimum_key_mono g p p' k : NoDup (map fst (g_keys g)) -> keys_int g -> p <= p' ->
  gm_minimum_key p g = Ok k -> exists k', gm_minimum_key p' g = Ok k' /\ k' <= k.
Proof.
  intros ND HK Hp H. destruct (minimum_key_lower g p k ND HK H) as [_ (n & pn & Hs & Hpn)].
  destruct (gm_minimum_key p' g) as [k'| |] eqn:E.
  - exists k'. split; [reflexivity|]. destruct (minimum_key_lower g p' k' ND HK E) as [L _]. apply (L n k pn); [auto|lia].
  - exfalso. pose proof (proj1 (minimum_key_throws g p' ND HK) E n k pn Hs). lia.
  - exfalso. eapply minimum_key_not_ub; eauto.
Qed.

Section Keys.
Variable bp : Z -> Z -> Z -> Z -> Z.

Lemma run_names ops : NoDup (map fst (g_keys (i_gm (gm_run bp igm_init ops)))).
Proof. apply (inv_names _ (inv_gm _ (gm_run_inv bp ops igm_init igm_init_inv))). Qed.

(* ---------------- C08 ---------------- *)
Definition assigns (n : string) (op : gmop) : bool :=
  match op with OSetNamedKey n' _ _ => String.eqb n n' | _ => false end.
Definition increments (n : string) (op : gmop) : bool :=
  match op with OIncrement n' => String.eqb n n' | _ => false end.
Definition count_inc (n : string) (ops : list gmop) : Z := Z.of_nat (List.length (filter (increments n) ops)).

Lemma named_fold_some n ops k p :
  forallb (fun op => negb (assigns n op)) ops = true ->
  fold_left (fun cur op => named_after n op cur) ops (Some (k, p)) = Some (k + count_inc n ops, p).
Proof.
  revert k. induction ops as [|op ops IH]; intros k H.
  - simpl. unfold count_inc. simpl. rewrite Z.add_0_r. reflexivity.
  - simpl in H. apply andb_prop in H. destruct H as [H1 H2]. cbn [fold_left].
    assert (E: named_after n op (Some (k, p)) = Some (k + (if increments n op then 1 else 0), p)).
    { destruct op; simpl in *; rewrite ?Z.add_0_r; try reflexivity.
      - destruct (String.eqb n name); [discriminate|reflexivity].
      - destruct (String.eqb n name); [reflexivity|rewrite Z.add_0_r; reflexivity]. }
    rewrite E, IH by auto. f_equal. f_equal. unfold count_inc. simpl filter. destruct (increments n op); simpl List.length; lia.
Qed.

Lemma named_fold_none n ops :
  forallb (fun op => negb (assigns n op)) ops = true ->
  fold_left (fun cur op => named_after n op cur) ops None = None.
Proof.
  induction ops as [|op ops IH]; intros H; [reflexivity|]. simpl in H. apply andb_prop in H. destruct H as [H1 H2].
  cbn [fold_left]. assert (E: named_after n op None = None).
  { destruct op; simpl in *; try reflexivity; destruct (String.eqb n name); try reflexivity; discriminate. }
  rewrite E. auto.
Qed.

Lemma named_key_value n k p off pre post :
  forallb (fun op => negb (assigns n op)) post = true ->
  let g := i_gm (gm_run bp igm_init (pre ++ OSetNamedKey n k p :: post)) in
  gm_key n off g = Ok (k + count_inc n post + off) /\ gm_priority n g = Ok p.
Proof.
  intros H g. assert (E: sget n (g_keys g) = Some (k + count_inc n post, p)).
  { unfold g. rewrite run_keys by apply igm_init_inv. rewrite fold_left_app. cbn [fold_left].
    assert (Ea: forall cur, named_after n (OSetNamedKey n k p) cur = Some (k, p)).
    { intros cur. simpl. rewrite String.eqb_refl. reflexivity. }
    rewrite Ea. apply named_fold_some. auto. }
  unfold gm_key, gm_priority. rewrite E. auto.
Qed.

Lemma named_key_unknown n ops :
  forallb (fun op => negb (assigns n op)) ops = true ->
  let s := gm_run bp igm_init ops in
  (forall off, gm_key n off (i_gm s) = Throw) /\ gm_priority n (i_gm s) = Throw /\
  gm_step bp s (OIncrement n) = (s, Throw).
Proof.
  intros H s. assert (E: sget n (g_keys (i_gm s)) = None).
  { unfold s. rewrite run_keys by apply igm_init_inv. apply named_fold_none. auto. }
  unfold gm_key, gm_priority. rewrite E. repeat split. simpl. unfold lift, gm_increment. rewrite E. simpl.
  destruct s; reflexivity.
Qed.

(* ---------------- C09 ---------------- *)
(* calls that write none of the listed members through the stereo path *)
Section StereoFrame.
Context {T : Type}.
Variable h : gm -> T.
Hypothesis Hfeat : forall x g, h (with_feat x g) = h g.
Hypothesis Hids : forall x y g, h (with_ids x y g) = h g.
Hypothesis Hfac : forall x y g, h (with_fac x y g) = h g.
Hypothesis Hval : forall x y g, h (with_val x y g) = h g.
Hypothesis Hunm : forall x g, h (with_unm x g) = h g.

Lemma set_frame c k v g : h (fst (gm_set c k v g)) = h g.
Proof.
  unfold gm_set, gm_update, gm_add. destruct (sym_key c k) as [rk| |]; try reflexivity.
  destruct (mmem rk (g_val g)) eqn:E; cbn [fst]; [apply Hval|].
  destruct (mmem rk (g_new_val g)); cbn [fst]; [apply Hval|]. rewrite Hunm, !Hval. reflexivity.
Qed.

Lemma update_all_frame l g : h (fst (gm_update_all l g)) = h g.
Proof.
  revert g. induction l as [|[k v] l IH]; intros g; [reflexivity|]. simpl. unfold gm_update.
  destruct (mmem k (g_val g)); [|reflexivity]. rewrite IH, Hval. reflexivity.
Qed.

Lemma stereo_feature_frame k im1 im2 pose cam id meas g :
  h (fst (stereo_feature bp k im1 im2 pose cam id meas g)) = h g.
Proof.
  unfold stereo_feature. destruct (mget id im1) as [m1|]; [|reflexivity].
  assert (X: h (fst (stereo_first k im2 id m1 g)) = h g).
  { unfold stereo_first. destruct (match im2 with Some f => negb (mmem id f) | None => true end); [|reflexivity].
    destruct (sym_keys [(SymX, k - 1); (SymS, id)]); try reflexivity. cbn [fst]. rewrite Hids. unfold gm_add_factor.
    rewrite Hfac. reflexivity. }
  destruct (stereo_first k im2 id m1 g) as [g1 [u| |]]; cbn [fst] in *; auto. destruct (g_calib g1); auto.
  pose proof (set_frame SymS id (bp pose cam z meas) g1) as Y.
  destruct (gm_set SymS id (bp pose cam z meas) g1) as [g2 [u2| |]]; cbn [fst] in *; try congruence.
  destruct (sym_keys [(SymX, k); (SymS, id)]); cbn [fst]; unfold gm_add_factor; rewrite ?Hfac; congruence.
Qed.

Lemma stereo_frame k f g : h (fst (gm_create_stereo bp k f g)) = h g.
Proof.
  unfold gm_create_stereo. destruct (mmem k (g_feat g)); [reflexivity|].
  set (g2 := with_fac _ _ _). assert (E2: h g2 = h g) by (subst g2; rewrite Hfac, Hfeat; reflexivity).
  destruct (rev (g_feat g2)) as [|[k1 fi] [|[k2 im1] rest]]; try exact E2.
  destruct (gm_has SymX k g2) as [[|]| |]; try exact E2.
  destruct (gm_get SymX k g2); try exact E2. destruct (g_cam g2); try exact E2.
  set (g3 := with_ids _ _ g2). assert (E3: h g3 = h g) by (subst g3; rewrite Hids; exact E2).
  rewrite <- E3. clearbody g3. clear - Hids Hfac Hval Hunm. revert g3.
  induction fi as [|[id meas] fi IH]; intros g; [reflexivity|]. cbn [stereo_features_loop].
  match goal with |- context [stereo_feature bp ?a ?b ?c ?d ?e ?f ?m ?x] => pose proof (stereo_feature_frame a b c d e f m x) as X;
    destruct (stereo_feature bp a b c d e f m x) as [g1 [u| |]] end; cbn [fst] in *; auto.
  rewrite IH. exact X.
Qed.
End StereoFrame.

Lemma step_ts s op : igm_inv s -> forall k,
  mget k (g_ts (i_gm (fst (gm_step bp s op)))) = stamp_after k op (mget k (g_ts (i_gm s))).
Proof.
  intros I k0. pose proof (inv_gm _ I) as Ig.
  assert (Set_: forall c k v g, g_ts (fst (gm_set c k v g)) = g_ts g) by (intros; apply set_frame; reflexivity).
  destruct op; simpl gm_step; simpl stamp_after; try reflexivity; try (unfold lift; gsimp; rewrite Set_; reflexivity).
  - unfold lift, gm_set_navstate. gsimp. pose proof (Set_ SymX k p (i_gm s)) as E.
    destruct (gm_set SymX k p (i_gm s)) as [g1 [u| |]]; cbn [fst] in *; try congruence.
  - unfold lift, gm_increment. destruct (sget name (g_keys (i_gm s))) as [[? ?]|]; reflexivity.
  - unfold lift, gm_set_timestamp. destruct (0 <=? k) eqn:E; gsimp; [|rewrite andb_false_r; reflexivity].
    rewrite andb_true_r. destruct Ig. rewrite mget_mput by auto. destruct (Z.eqb_spec k0 k); reflexivity.
  - destruct kind; try reflexivity; unfold lift; gsimp;
      match goal with |- context [gm_create ?a ?b ?c ?d ?e] => destruct (gm_create_frame a b c d e) as (_&_&_&F&_) end;
      rewrite F; reflexivity.
  - unfold lift. gsimp. rewrite (stereo_frame g_ts) by reflexivity. reflexivity.
  - unfold lift. gsimp. rewrite (update_all_frame g_ts) by reflexivity. reflexivity.
  - destruct (optimise_frame bp o m s I) as [_ F]. cbv zeta in F. unfold obs in *. rewrite F. reflexivity.
  - destruct (igm_marginalise_frame o k s) as (_&_&_&_&_&M&_).
    destruct (igm_marginalise o k s) as [s' [ks| |]]; cbn [fst] in *; rewrite M; reflexivity.
Qed.

Lemma run_ts ops s k : igm_inv s ->
  mget k (g_ts (i_gm (gm_run bp s ops))) = fold_left (fun cur op => stamp_after k op cur) ops (mget k (g_ts (i_gm s))).
Proof.
  revert s. induction ops as [|op ops IH]; simpl; intros s I; [reflexivity|].
  rewrite IH by (apply gm_step_inv; auto). rewrite step_ts by auto. reflexivity.
Qed.

Definition stamps (k : Z) (op : gmop) : bool :=
  match op with OSetTimestamp k' _ => k =? k' | _ => false end.

Lemma stamp_fold k ops cur :
  forallb (fun op => negb (stamps k op)) ops = true ->
  fold_left (fun cur op => stamp_after k op cur) ops cur = cur.
Proof.
  induction ops as [|op ops IH]; intros H; [reflexivity|]. simpl in H. apply andb_prop in H. destruct H as [H1 H2].
  cbn [fold_left]. assert (E: stamp_after k op cur = cur).
  { destruct op; simpl in *; try reflexivity. destruct (k =? k0); [discriminate|reflexivity]. }
  rewrite E. auto.
Qed.

Lemma timestamp_last k t pre post : 0 <= k ->
  forallb (fun op => negb (stamps k op)) post = true ->
  gm_timestamp k (i_gm (gm_run bp igm_init (pre ++ OSetTimestamp k t :: post))) = Ok t.
Proof.
  intros Hk H. unfold gm_timestamp. rewrite run_ts by apply igm_init_inv. rewrite fold_left_app. cbn [fold_left].
  assert (Ea: forall cur, stamp_after k (OSetTimestamp k t) cur = Some t).
  { intros cur. simpl. rewrite Z.eqb_refl. destruct (Z.leb_spec 0 k); [reflexivity|lia]. }
  rewrite Ea, stamp_fold by auto. destruct (Z.leb_spec 0 k); [reflexivity|lia].
Qed.

Lemma timestamp_missing k ops :
  k < 0 \/ forallb (fun op => negb (stamps k op)) ops = true ->
  gm_timestamp k (i_gm (gm_run bp igm_init ops)) = Throw.
Proof.
  unfold gm_timestamp. intros [H|H].
  - destruct (Z.leb_spec 0 k); [lia|reflexivity].
  - rewrite run_ts by apply igm_init_inv. rewrite stamp_fold by auto. simpl. destruct (0 <=? k); reflexivity.
Qed.
End Keys.

Lemma timestamp_cases k g : (exists t, gm_timestamp k g = Ok t) \/ gm_timestamp k g = Throw.
Proof. unfold gm_timestamp. destruct (0 <=? k); [destruct (mget k (g_ts g)); eauto|auto]. Qed.

Lemma time_between_value k1 k2 t1 t2 g :
  gm_timestamp k1 g = Ok t1 -> gm_timestamp k2 g = Ok t2 -> gm_time_between k1 k2 g = Ok (t2 - t1).
Proof. intros H1 H2. unfold gm_time_between. rewrite H1, H2. reflexivity. Qed.

Lemma time_between_throws k1 k2 g :
  gm_time_between k1 k2 g = Throw <-> gm_timestamp k1 g = Throw \/ gm_timestamp k2 g = Throw.
Proof.
  unfold gm_time_between. destruct (timestamp_cases k1 g) as [[t1 E1]|E1], (timestamp_cases k2 g) as [[t2 E2]|E2];
    rewrite E1, E2; simpl; split; auto; try discriminate. intros [H|H]; discriminate.
Qed.

Lemma time_between_laws k1 k2 k3 d12 d23 g :
  gm_time_between k1 k2 g = Ok d12 -> gm_time_between k2 k3 g = Ok d23 ->
  gm_time_between k1 k3 g = Ok (d12 + d23) /\ gm_time_between k2 k1 g = Ok (- d12) /\ gm_time_between k1 k1 g = Ok 0.
Proof.
  unfold gm_time_between.
  destruct (timestamp_cases k1 g) as [[t1 E1]|E1], (timestamp_cases k2 g) as [[t2 E2]|E2], (timestamp_cases k3 g) as [[t3 E3]|E3];
    rewrite E1, E2, E3; simpl; intros H1 H2; try discriminate. inversion H1; inversion H2; subst.
  repeat split; f_equal; lia.
Qed.
