(* Live odometry: every IMU message after the optimised state is integrated once. *)
From Coq Require Import ZArith Lia Reals List Bool String Sorted.
From Verif Require Import Base Mx Interp Geo EgModel CvModel MsModel NvModel NvSpec BfModel FoModel FoSpec.
Import ListNotations.

Lemma sorted_app (a c : list rimu) : in_order (a ++ c) -> in_order a /\ in_order c /\ forall x y, In x a -> In y c -> (ri_time x < ri_time y)%Z.
Proof.
  unfold in_order. induction a as [|z a IH]; cbn [app].
  - intros H. split; [constructor|]. split; [exact H|]. intros x y [].
  - intros H. inversion H as [|? ? H1 H2]; subst. destruct (IH H1) as (A & B & C). rewrite Forall_forall in H2. split; [|split; [exact B|]].
    + constructor; [exact A|]. apply Forall_forall. intros x Hx. apply H2. apply in_or_app. auto.
    + intros x y [<-|Hx] Hy; [apply H2; apply in_or_app; auto|auto].
Qed.
Lemma later_app t a c : later t (a ++ c) = later t a ++ later t c. Proof. apply filter_app. Qed.
Lemma later_none t a : (forall x, In x a -> (ri_time x <= t)%Z) -> later t a = [].
Proof.
  induction a as [|x a IH]; intros H; [reflexivity|]. unfold later. cbn [filter]. destruct (Z.ltb_spec t (ri_time x)) as [L|L]; [pose proof (H x (or_introl eq_refl)); lia|].
  apply IH. intros y Hy. apply H. right. exact Hy.
Qed.
Lemma last_cons {A} (l : list A) : forall x d, last (x :: l) d = last l x.
Proof. induction l as [|y l IH]; intros x d; [reflexivity|]. change (last (x :: y :: l) d) with (last (y :: l) d). rewrite IH. symmetry. apply IH. Qed.
Lemma timed_snoc l : forall t m, timed t (l ++ [m]) = timed t l ++ [(ri_a m, ri_w m, seconds (ri_time m - last (map ri_time l) t))].
Proof.
  induction l as [|x l IH]; intros t m; [reflexivity|]. cbn [app timed map]. rewrite IH, last_cons. reflexivity.
Qed.

Section Live.
Variable look : string -> string -> Z -> res iso.
Variable b : frames.
Variable map_frame : string.
Variable pim : Type.
Variable pim_new : cmat -> cmat -> bias -> res pim.
Variable add : pim -> vec3 -> vec3 -> R -> pim.
Variable predict : pim -> nav -> bias -> nav.
Variable overwrite : option (cmat * cmat).
Notation received := (received overwrite).
Notation stepl := (lstep look b map_frame pim pim_new add predict overwrite).
Notation runl := (lrun look b map_frame pim pim_new add predict overwrite).
Notation history l := (map received (imus l)).

Lemma received_time m : ri_time (received m) = ri_time m. Proof. unfold FoModel.received. destruct overwrite as [[a g]|]; reflexivity. Qed.
Lemma received_order l : in_order l -> in_order (map received l).
Proof.
  unfold in_order. induction 1 as [|x l A IH B]; [constructor|]. cbn [map]. constructor; [exact IH|]. rewrite Forall_forall in *. intros y Hy. apply in_map_iff in Hy. destruct Hy as (z & <- & Hz).
  rewrite !received_time. apply B, Hz.
Qed.

(* the integrator after the optimised state (o, bi), given all messages h that came *)
Definition integrates (h : list rimu) (o : odo) (bi : bias) (p : pim) : Prop :=
  exists m p0, closest (od_time o) h m /\ pim_new (ri_acov m) (ri_wcov m) bi = Ok p0 /\ p = feed add p0 (timed (od_time o) (later (od_time o) h)).

Record linv (h : list rimu) (r : option (odo * bias)) (s : live pim) : Prop := {
  l_buf : exists d, h = d ++ lv_buf s;
  l_pim : match r with
          | None => lv_pim s = None
          | Some (o, bi) => lv_state s = world_state o /\ lv_bias s = bi /\ (exists m, In m h /\ (od_time o <= ri_time m)%Z) /\
              lv_last s = last (map ri_time (later (od_time o) h)) (od_time o) /\ exists p, lv_pim s = Some p /\ integrates h o bi p
          end }.

Lemma replay_feed l : in_order l -> forall t p p' e, replay pim add t l p = Ok (p', e) -> p' = feed add p (timed t (later t l)) /\ e = last (map ri_time (later t l)) t.
Proof.
  unfold in_order. induction 1 as [|m l A IH B]; intros t p p' e; cbn [replay].
  - intros [= <- <-]. split; reflexivity.
  - unfold later. cbn [filter]. destruct (Z.ltb_spec t (ri_time m)) as [L|L].
    + unfold add_measurement. destruct (Z.leb_spec (ri_time m - t) 0); [lia|]. cbn [rbind]. intros Hr. apply IH in Hr. destruct Hr as [-> ->].
      assert (E : later (ri_time m) l = filter (fun x => (t <? ri_time x)%Z) l).
      { unfold later. apply filter_ext_in. intros x Hx. rewrite Forall_forall in B. specialize (B x Hx). destruct (Z.ltb_spec (ri_time m) (ri_time x)), (Z.ltb_spec t (ri_time x)); lia || reflexivity. }
      rewrite E. cbn [timed map feed fold_left]. split; [reflexivity|]. rewrite last_cons. reflexivity.
    + intros H. apply IH in H. exact H.
Qed.

Lemma first_spec t l : forall prev a c, first_not_before t prev l = Ok (a, c) -> exists u v, prev :: l = u ++ a :: c :: v /\ (t <= ri_time c)%Z /\ forall x, In x (u ++ [a]) -> x = prev \/ (ri_time x < t)%Z.
Proof.
  induction l as [|x l IH]; intros prev a c; cbn [first_not_before]; [discriminate|]. destruct (Z.ltb_spec (ri_time x) t) as [L|L]; intros H.
  - apply IH in H. destruct H as (u & v & E & T & B). exists (prev :: u), v. split; [cbn [app]; rewrite <- E; reflexivity|]. split; [exact T|]. cbn [app]. intros y [<-|Hy]; [auto|]. right. destruct (B y Hy) as [->|K]; assumption.
  - injection H as <- <-. exists [], l. split; [reflexivity|]. split; [lia|]. intros y [<-|[]]. auto.
Qed.
Lemma around_spec t l a c : around t l = Ok (a, c) -> exists u v, l = u ++ a :: c :: v /\ (t <= ri_time c)%Z /\ (forall x, In x (u ++ [a]) -> (ri_time x <= t)%Z).
Proof.
  destruct l as [|x [|y l]]; cbn [around]; try discriminate. destruct (Z.ltb_spec t (ri_time x)) as [L|L]; cbn [orb]; [discriminate|]. destruct (Z.ltb _ t); [discriminate|].
  intros H. apply first_spec in H. destruct H as (u & v & E & T & B). exists u, v. split; [exact E|]. split; [exact T|]. intros z Hz. destruct (B z Hz) as [->|K]; lia.
Qed.
Lemma nearer_closest t l a c u v : in_order l -> l = u ++ a :: c :: v -> (ri_time a <= t <= ri_time c)%Z -> closest t l (nearer t a c).
Proof.
  intros O E T. assert (O' := O). rewrite E in O'. apply sorted_app in O'. destruct O' as (_ & O1 & B1).
  unfold in_order in O1. inversion O1 as [|? ? O2 B2]; subst. inversion O2 as [|? ? _ B3]; subst. rewrite Forall_forall in B2, B3.
  assert (AC : (ri_time a < ri_time c)%Z) by (apply B2; left; reflexivity).
  unfold nearer. destruct (Z.eqb_spec (ri_time a) (ri_time c)); [lia|].
  assert (X : forall m', In m' (u ++ a :: c :: v) -> (ri_time m' <= ri_time a)%Z /\ (m' = a \/ (ri_time m' < ri_time a)%Z) \/ (ri_time c <= ri_time m')%Z).
  { intros m' Hm. apply in_app_or in Hm. destruct Hm as [Hm|[<-|[<-|Hm]]]; [left|left|right|right]; try (split; auto; lia).
    - assert ((ri_time m' < ri_time a)%Z) by (apply B1; [exact Hm|left; reflexivity]). split; [lia|auto].
    - lia.
    - specialize (B3 m' Hm). lia. }
  destruct (Z.leb_spec (2 * (t - ri_time a)) (ri_time c - ri_time a)); (split; [apply in_or_app; right; cbn; auto|]); intros m' H'; destruct (X m' H') as [[Y [->|Z']]|Y]; lia.
Qed.

Lemma closest_snoc t h m x : closest t h m -> (exists y, In y h /\ (t <= ri_time y)%Z) -> (forall y, In y h -> (ri_time y < ri_time x)%Z) -> closest t (h ++ [x]) m.
Proof.
  intros [A B] (y & Hy & Ty) C. split; [apply in_or_app; auto|]. intros m' H. apply in_app_or in H. destruct H as [H|[<-|[]]]; [apply B, H|].
  specialize (C y Hy). destruct (B y Hy); lia.
Qed.

Lemma drop_suffix t l : exists d, l = d ++ drop_old t l.
Proof. induction l as [|m l [d IH]]; cbn [drop_old]; [exists []; reflexivity|]. destruct (Z.ltb _ t); [exists (m :: d); cbn [app]; rewrite <- IH; reflexivity|exists []; reflexivity]. Qed.

Definition seen1 (e : event) : list rimu := match e with EImu m => [received m] | _ => [] end.
Definition next (r : option (odo * bias)) (e : event) : option (odo * bias) := match e with EOdometry o bi => Some (o, bi) | _ => r end.
Lemma linv_step h r s e s' out : linv h r s -> in_order (h ++ seen1 e) -> stepl s e = Ok (s', out) -> linv (h ++ seen1 e) (next r e) s'.
Proof.
  intros [(d & Hd) P] O. destruct e as [m|o bi|t]; cbn [lstep seen1 next].
  - unfold on_imu. apply sorted_app in O. destruct O as (Oh & _ & B).
    assert (Bm : forall y, In y h -> (ri_time y < ri_time (received m))%Z) by (intros y Hy; apply B; [exact Hy|left; reflexivity]).
    destruct (lv_pim s) as [p|] eqn:Ep.
    + destruct r as [[o bi]|]; [|congruence]. destruct P as (Ps & Pb & (y & Hy & Ty) & Pl & p1 & Q1 & I). assert (p1 = p) by congruence. subst p1.
      unfold add_measurement. destruct (Z.leb_spec (ri_time (received m) - lv_last s) 0) as [|L]; [discriminate|]. cbn [rbind].
      destruct (body_to_frame _ _ _ _) as [t| |]; try discriminate. cbn [rbind]. destruct (body_frame_id b) as [child| |]; try discriminate. cbn [rbind]. intros [= <- _].
      assert (LM : later (od_time o) (h ++ [received m]) = later (od_time o) h ++ [received m]).
      { rewrite later_app. f_equal. unfold later. cbn [filter]. specialize (Bm y Hy). destruct (Z.ltb_spec (od_time o) (ri_time (received m))); [reflexivity|lia]. }
      constructor.
      * exists d. cbn [lv_buf]. rewrite Hd. rewrite app_assoc. reflexivity.
      * cbn [lv_state lv_bias lv_last lv_pim]. split; [exact Ps|]. split; [exact Pb|]. split; [exists y; split; [apply in_or_app; auto|exact Ty]|]. rewrite LM. split; [rewrite map_app; cbn [map]; rewrite last_last; reflexivity|].
        eexists. split; [reflexivity|]. destruct I as (m0 & p0 & C0 & N0 & ->). exists m0, p0. split; [apply closest_snoc; [exact C0|exists y; auto|exact Bm]|]. split; [exact N0|].
        rewrite LM, timed_snoc. unfold feed. rewrite fold_left_app. cbn [fold_left]. rewrite Pl. reflexivity.
    + intros [= <- _]. constructor.
      * exists d. cbn [lv_buf]. rewrite Hd, app_assoc. reflexivity.
      * cbn [lv_pim]. destruct r as [[o bi]|]; [|reflexivity]. destruct P as (_ & _ & _ & _ & p & Q & _). congruence.
  - unfold on_odometry. rewrite app_nil_r in O |- *. destruct (base_link_messages look b o) as [l0| |]; try discriminate. cbn [rbind].
    destruct (around (od_time o) (lv_buf s)) as [[m1 m2]| |] eqn:Ea; try discriminate. cbn [rbind].
    destruct (pim_new _ _ bi) as [p0| |] eqn:En; try discriminate. cbn [rbind]. destruct (replay pim add (od_time o) (lv_buf s) p0) as [[p' e]| |] eqn:Er; try discriminate. cbn [rbind]. intros [= <- _].
    assert (Ob : in_order (lv_buf s)) by (rewrite Hd in O; apply sorted_app in O; tauto).
    apply around_spec in Ea. destruct Ea as (u & v & E & T2 & T1).
    assert (Lh : later (od_time o) h = later (od_time o) (lv_buf s)).
    { rewrite Hd, later_app, later_none; [reflexivity|]. intros x Hx. rewrite Hd in O. apply sorted_app in O. destruct O as (_ & _ & B).
      assert (In m1 (lv_buf s)) by (rewrite E; apply in_or_app; right; left; reflexivity). specialize (B x m1 Hx H). specialize (T1 m1). pose proof (T1 ltac:(apply in_or_app; right; left; reflexivity)). lia. }
    apply replay_feed in Er; [|exact Ob]. destruct Er as [-> ->]. constructor.
    + exists d. exact Hd.
    + cbn [lv_state lv_bias lv_last lv_pim]. split; [reflexivity|]. split; [reflexivity|]. split; [exists m2; split; [rewrite Hd, E; apply in_or_app; right; apply in_or_app; right; right; left; reflexivity|exact T2]|].
      rewrite Lh. split; [reflexivity|]. eexists. split; [reflexivity|]. exists (nearer (od_time o) m1 m2), p0. rewrite Lh. split; [|split; [exact En|reflexivity]].
      apply (nearer_closest (od_time o) h m1 m2 (d ++ u) v O); [rewrite Hd, E, <- app_assoc; reflexivity|]. split; [apply T1; apply in_or_app; right; left; reflexivity|exact T2].
  - rewrite app_nil_r in O |- *. intros [= <- _]. constructor.
    + cbn [lv_buf]. destruct (drop_suffix t (lv_buf s)) as [d' E]. exists (d ++ d'). rewrite <- app_assoc, <- E. exact Hd.
    + exact P.
Qed.

Lemma run_snoc l : forall s e s2 out, runl s (l ++ [e]) = Ok (s2, out) -> exists s1 o1 o2, runl s l = Ok (s1, o1) /\ stepl s1 e = Ok (s2, o2) /\ out = o1 ++ o2.
Proof.
  induction l as [|x l IH]; intros s e s2 out; cbn [app lrun].
  - destruct (stepl s e) as [[s1 o1]| |] eqn:E; try discriminate. cbn [rbind fst snd]. intros [= <- <-]. exists s, [], o1. rewrite app_nil_r. cbn [app]. auto.
  - destruct (stepl s x) as [[s1 o1]| |]; try discriminate. cbn [rbind fst snd]. destruct (runl s1 (l ++ [e])) as [[s3 o3]| |] eqn:E; try discriminate. cbn [rbind fst snd]. intros [= <- <-].
    apply IH in E. destruct E as (s4 & o4 & o5 & E1 & E2 & ->). rewrite E1. cbn [rbind fst snd]. exists s4, (o1 ++ o4), o5. rewrite app_assoc. auto.
Qed.
Lemma imus_snoc l e : history (l ++ [e]) = history l ++ seen1 e.
Proof. unfold imus. rewrite flat_map_app, map_app. f_equal. destruct e; reflexivity. Qed.
Lemma latest_snoc l e : latest (l ++ [e]) = next (latest l) e.
Proof. unfold latest. rewrite fold_left_app. destruct e; reflexivity. Qed.
Lemma linv_run l : forall s out, in_order (imus l) -> runl (live0 pim) l = Ok (s, out) -> linv (history l) (latest l) s.
Proof.
  induction l as [|e l IH] using rev_ind; intros s out O H.
  - injection H as <- <-. constructor; [exists []; reflexivity|reflexivity].
  - apply run_snoc in H. destruct H as (s1 & o1 & o2 & H1 & H2 & ->).
    assert (O1 : in_order (imus l)) by (unfold imus in *; rewrite flat_map_app in O; apply sorted_app in O; tauto).
    rewrite imus_snoc, latest_snoc. eapply linv_step; [eapply IH; eauto| |exact H2]. rewrite <- imus_snoc. apply received_order, O.
Qed.

(* ---- theorems ---- *)
Theorem live_state l s out : in_order (imus l) -> runl (live0 pim) l = Ok (s, out) ->
  match latest l with
  | None => lv_pim s = None
  | Some (o, bi) => lv_state s = world_state o /\ lv_bias s = bi /\ exists p, lv_pim s = Some p /\ integrates (history l) o bi p
  end.
Proof. intros O H. pose proof (linv_run l s out O H) as [_ P]. destruct (latest l) as [[o bi]|]; [|exact P]. destruct P as (A & B & _ & _ & C). auto. Qed.

Theorem live_before l m s out : in_order (imus (l ++ [EImu m])) -> latest l = None -> runl (live0 pim) (l ++ [EImu m]) = Ok (s, out) -> forall s1 o1, runl (live0 pim) l = Ok (s1, o1) -> out = o1.
Proof.
  intros O N H s1 o1 H1. apply run_snoc in H. destruct H as (s1' & o1' & o2 & H1' & H2 & ->). rewrite H1 in H1'. injection H1' as <- <-.
  assert (O1 : in_order (imus l)) by (unfold imus in *; rewrite flat_map_app in O; apply sorted_app in O; tauto).
  pose proof (linv_run l s1 o1 O1 H1) as [_ P]. rewrite N in P. cbn [lstep] in H2. unfold on_imu in H2. rewrite P in H2. injection H2 as _ <-. apply app_nil_r.
Qed.
Theorem live_message l m s out o bi : in_order (imus (l ++ [EImu m])) -> latest l = Some (o, bi) -> runl (live0 pim) (l ++ [EImu m]) = Ok (s, out) ->
  exists s1 o1 p t child msg, runl (live0 pim) l = Ok (s1, o1) /\ out = o1 ++ [MRate msg] /\ integrates (history (l ++ [EImu m])) o bi p /\ body_to_frame look b "imu" 0 = Ok t /\ body_frame_id b = Ok child /\
    let st := predict p (world_state o) bi in
    oo_time msg = ri_time m /\ oo_frame msg = map_frame /\ oo_child msg = child /\
    mpc_pose (oo_pose msg) = mkMP (n_pos st) (quat_of (n_rot st)) /\ mtc_lin (oo_twist msg) = n_vel st /\ mtc_ang (oo_twist msg) = mapply (lin t) (vadd (ri_w m) (b_gyr bi)) /\
    no_uncertainty (mpc_cov (oo_pose msg)) /\ no_uncertainty (mtc_cov (oo_twist msg)).
Proof.
  intros O N H. pose proof (live_state _ _ _ O H) as PS. rewrite latest_snoc, N in PS. cbn [next] in PS. apply run_snoc in H. destruct H as (s1 & o1 & o2 & H1 & H2 & ->).
  assert (O1 : in_order (imus l)) by (unfold imus in *; rewrite flat_map_app in O; apply sorted_app in O; tauto).
  pose proof (live_state l s1 o1 O1 H1) as P1. rewrite N in P1. destruct P1 as (A1 & B1 & p1 & C1 & _). cbn [lstep] in H2. unfold on_imu in H2. rewrite C1 in H2.
  destruct (add_measurement pim add p1 _ _) as [p'| |]; try discriminate. cbn [rbind] in H2. destruct (body_to_frame _ _ _ _) as [t| |] eqn:Et; try discriminate. cbn [rbind] in H2.
  destruct (body_frame_id b) as [child| |] eqn:Ec; try discriminate. cbn [rbind] in H2. injection H2 as <- <-. cbn [lv_state lv_bias lv_pim] in PS. destruct PS as (A & B & p & [= ->] & I).
  eexists s1, o1, p, t, child, _. split; [exact H1|]. split; [reflexivity|]. split; [exact I|]. split; [reflexivity|]. split; [reflexivity|]. cbn [oo_time oo_frame oo_child oo_pose oo_twist mpc_pose mpc_cov mtc_lin mtc_ang mtc_cov].
  rewrite A1, B1, received_time. assert (W : ri_w (received m) = ri_w m) by (unfold FoModel.received; destruct overwrite as [[? ?]|]; reflexivity). rewrite W.
  assert (Z36 : no_uncertainty (zeros 36)) by (split; [reflexivity|intros x Hx; apply repeat_spec in Hx; exact Hx]). auto 10.
Qed.
(* messages received before or after the optimised state count the same *)
Theorem live_order_irrelevant l l' s s' out out' o bi : in_order (imus l) -> imus l = imus l' -> latest l = Some (o, bi) -> latest l' = Some (o, bi) ->
  runl (live0 pim) l = Ok (s, out) -> runl (live0 pim) l' = Ok (s', out') -> lv_pim s = lv_pim s' /\ lv_state s = lv_state s' /\ lv_bias s = lv_bias s'.
Proof.
  intros O E N N' H H'. pose proof (live_state l s out O H) as A. rewrite E in O. pose proof (live_state l' s' out' O H') as B. rewrite N in A. rewrite N' in B.
  destruct A as (A1 & A2 & p & A3 & m & p0 & A4 & A5 & ->). destruct B as (B1 & B2 & q & B3 & m' & q0 & B4 & B5 & ->). rewrite E in A3, A4.
  assert (M : m = m').
  { destruct A4 as [I1 C1], B4 as [I2 C2]. pose proof (C1 m' I2) as X. pose proof (C2 m I1) as Y. assert (T : ri_time m = ri_time m') by lia.
    pose proof (received_order _ O) as S'. clear - I1 I2 T S'. unfold in_order in S'. induction S' as [|x h A IH B]; [destruct I1|]. rewrite Forall_forall in B.
    destruct I1 as [<-|I1], I2 as [<-|I2]; auto; [specialize (B m' I2)|specialize (B m I1)]; lia. }
  subst m'. rewrite A5 in B5. injection B5 as <-. rewrite A3, B3, A1, B1, A2, B2. auto.
Qed.
(* the noise: the settings if there are any, else that of the message closest to the state; the readings are those sent *)
Lemma received_readings l : forall t, timed t (later t (map received l)) = timed t (later t l).
Proof.
  assert (L : forall t k, later t (map received k) = map received (later t k)).
  { intros t k. induction k as [|m k IH]; [reflexivity|]. unfold later in *. cbn [map filter]. rewrite received_time. destruct (Z.ltb t (ri_time m)); cbn [map]; rewrite IH; reflexivity. }
  intros t. rewrite L. generalize (later t l) as k. intros k. revert t. induction k as [|m k IH]; intros t; [reflexivity|]. cbn [map timed]. rewrite received_time, IH. unfold FoModel.received. destruct overwrite as [[a g]|]; reflexivity.
Qed.
Theorem live_noise l s out o bi : in_order (imus l) -> runl (live0 pim) l = Ok (s, out) -> latest l = Some (o, bi) ->
  exists acc gyr p0, match overwrite with
                     | Some (a, g) => acc = a /\ gyr = g
                     | None => exists m, closest (od_time o) (imus l) m /\ acc = ri_acov m /\ gyr = ri_wcov m
                     end /\
    pim_new acc gyr bi = Ok p0 /\ lv_pim s = Some (feed add p0 (timed (od_time o) (later (od_time o) (imus l)))).
Proof.
  intros O H N. pose proof (live_state l s out O H) as P. rewrite N in P. destruct P as (_ & _ & p & E & m & p0 & C & Np & ->). rewrite received_readings in E. exists (ri_acov m), (ri_wcov m), p0. split; [|auto].
  destruct C as [I C]. apply in_map_iff in I. destruct I as (m0 & <- & I). unfold FoModel.received in *. destruct overwrite as [[a g]|]; [split; reflexivity|]. rewrite map_id in C. exists m0. repeat split; auto.
Qed.
End Live.
