(* The pipeline keeps every part within its contract. *)
From Verif Require Import Base ImuModel ImuSpec ImuProofs FeModel FeSpec FeBaro FeProofs FeImu FeLive.
From Verif Require Import RegModel RegSpec RegProofs RegMore.
From Verif Require Import GmModel GmReady BeModel BeSpec BeProofs BeAbs BeInv BeSect BeHealthy BeLive LpModel LpSpec.
Local Open Scope Z_scope.

(* ---- lists ---- *)
Lemma firstn_prefix {A} (a b : list A) : firstn (List.length a) (a ++ b) = a.
Proof. rewrite firstn_app, Nat.sub_diag, firstn_all. cbn. apply app_nil_r. Qed.
Lemma firstn_keep {A} n (l x : list A) : (n <= List.length l)%nat -> firstn n (l ++ x) = firstn n l.
Proof. intros H. rewrite firstn_app. replace (n - List.length l)%nat with 0%nat by lia. cbn. apply app_nil_r. Qed.
Lemma firstn_next {A} (l : list A) n x : nth_error l n = Some x -> firstn (S n) l = firstn n l ++ [x].
Proof. revert n. induction l as [|y l IH]; intros [|n]; cbn; try discriminate; [intros [= ->]; reflexivity|]. intros H. rewrite <- (IH n H). reflexivity. Qed.
Lemma nth_keep {A} (l x : list A) n a : nth_error l n = Some a -> nth_error (l ++ x) n = Some a.
Proof. intros H. rewrite nth_error_app1; [exact H|]. apply nth_error_Some. congruence. Qed.
Lemma nth_firstn {A} (l : list A) : forall n i, (i < n)%nat -> nth_error (firstn n l) i = nth_error l i.
Proof. induction l as [|x l IH]; intros [|n] [|i] H; cbn; auto; try lia. apply IH. lia. Qed.
Lemma nth_lt {A} (l : list A) n a : nth_error l n = Some a -> (n < List.length l)%nat.
Proof. intros H. apply nth_error_Some. congruence. Qed.
Lemma up_nth : forall l i j a b, up l -> nth_error l i = Some a -> nth_error l j = Some b -> (i < j)%nat -> a < b.
Proof.
  induction l as [|x l IH]; intros i j a b U Hi Hj L; [destruct i; discriminate|]. destruct U as [H1 H2]. destruct j as [|j]; [lia|]. cbn in Hj. destruct i as [|i]; cbn in Hi.
  - injection Hi as <-. apply H1. eapply nth_error_In; eauto.
  - apply (IH i j); auto. lia.
Qed.
Lemma up_inj l i j a : up l -> nth_error l i = Some a -> nth_error l j = Some a -> i = j.
Proof. intros U Hi Hj. destruct (Nat.lt_trichotomy i j) as [L|[L|L]]; auto; [pose proof (up_nth l i j a a U Hi Hj L)|pose proof (up_nth l j i a a U Hj Hi L)]; lia. Qed.

(* ---- times ---- *)
Definition agrees (tau : Z -> Z) (l : list Z) : Prop := forall n t, nth_error l n = Some t -> tau (Z.of_nat n) = t.
Definition tau_of (l : list Z) (k : Z) : Z :=
  if k <? Z.of_nat (List.length l) then nth (Z.to_nat k) l 0 else last l 0 + (k - Z.of_nat (List.length l) + 1).
Lemma tau_agrees l : agrees (tau_of l) l.
Proof.
  intros n t H. pose proof (nth_lt _ _ _ H). unfold tau_of. replace (Z.of_nat n <? Z.of_nat (List.length l)) with true by lia. rewrite Nat2Z.id. apply nth_error_nth. exact H.
Qed.
Lemma last_nth_error {A} (l : list A) d : l <> [] -> nth_error l (List.length l - 1) = Some (last l d).
Proof.
  intros N. destruct (exists_last N) as (m & x & ->). rewrite last_last, app_length. cbn. replace (List.length m + 1 - 1)%nat with (List.length m) by lia.
  rewrite nth_error_app2, Nat.sub_diag by lia. reflexivity.
Qed.
Lemma tau_mono l : up l -> mono (tau_of l).
Proof.
  intros U i k [Hi L]. unfold tau_of. destruct (Z.ltb_spec i (Z.of_nat (List.length l))) as [Li|Li], (Z.ltb_spec k (Z.of_nat (List.length l))) as [Lk|Lk]; try lia.
  - assert (E1 : nth_error l (Z.to_nat i) = Some (nth (Z.to_nat i) l 0)) by (apply nth_error_nth'; lia).
    assert (E2 : nth_error l (Z.to_nat k) = Some (nth (Z.to_nat k) l 0)) by (apply nth_error_nth'; lia).
    apply (up_nth l _ _ _ _ U E1 E2). lia.
  - assert (E1 : nth_error l (Z.to_nat i) = Some (nth (Z.to_nat i) l 0)) by (apply nth_error_nth'; lia).
    assert (N : l <> []) by (intros ->; cbn in Li; lia). pose proof (last_nth_error l 0 N) as E2.
    destruct (Nat.eq_dec (Z.to_nat i) (List.length l - 1)) as [E|NE].
    + rewrite E in E1. rewrite E1 in E2. injection E2 as E2. rewrite E. lia.
    + pose proof (up_nth l _ _ _ _ U E1 E2 ltac:(lia)). lia.
Qed.
Lemma agrees_app tau l x : agrees tau (l ++ x) -> agrees tau l.
Proof. intros H n t E. apply H. apply nth_keep. exact E. Qed.

(* ---- front end ---- *)
Definition news (s : fe) (i : fin) (o : list fout) : Prop :=
  announced o = [] \/ exists u sw new, i = IPoll /\ f_pc s = PChosen u sw new /\ announced o = [new] /\ (f_init s = false -> new <= f_last s).
Lemma fe_grows c s i s' : fe_step c s i = Ok s' -> exists o, f_out s' = f_out s ++ o /\ news s i o.
Proof.
  assert (N : exists o, f_out s = f_out s ++ o /\ news s i o) by (exists []; rewrite app_nil_r; split; [reflexivity|left; reflexivity]).
  assert (X : forall o, announced o = [] -> exists o', f_out s ++ o = f_out s ++ o' /\ news s i o') by (intros o Ho; exists o; split; [reflexivity|left; exact Ho]).
  assert (Y : forall l, announced (map (fun x : Z * src => OBaro (fst x) (snd x)) l) = []) by (intros l; destruct (no_baro l) as (N1 & N2 & _); unfold announced; rewrite N1, N2; reflexivity).
  destruct i as [t v|t|t p|t|u sw|]; cbn [fe_step]; intros E.
  - unfold imu_callback in E. destruct (f_pre s); [|injection E as <-; exact N]. destruct (preintegrate _); try discriminate. cbn [rbind] in E. injection E as <-. apply X. reflexivity.
  - destruct (fc_stereo c); injection E as <-; [|exact N]. unfold stereo_callback. destruct (fc_graph_only c); [exact N|]. apply X. reflexivity.
  - destruct (fc_baro c); [|injection E as <-; exact N]. destruct (bar_measure _ _); try discriminate. cbn [rbind] in E. injection E as <-. apply X. apply Y.
  - unfold odometry_callback in E. destruct (imu_neighbours _ _); try discriminate. cbn [rbind] in E. destruct (catch_up _ _). destruct (preintegrate _); try discriminate. cbn [rbind] in E. injection E as <-. exact N.
  - destruct (f_pc s); try (injection E as <-; exact N). destruct (f_prev s) as [[pu psw]|]; injection E as <-; exact N.
  - unfold cloud_poll in E. destruct (f_pc s) eqn:Ep; try (injection E as <-; exact N); (destruct (f_prev s) as [[pu psw]|] eqn:Ev; [|injection E as <-; exact N]).
    + destruct (drop_before _ _) as [|t st]; [injection E as <-; exact N|]. destruct (t <? _); injection E as <-; [|exact N]. apply X. destruct (fc_graph_only c); reflexivity.
    + destruct (f_init s) eqn:Ei.
      * destruct (f_imu s) as [|[t0 v0] b] eqn:Eb; [discriminate|]. destruct (f_pst s <? t0); [discriminate|].
        destruct (select_imu _ _ _) as [l| |] in E; try discriminate. cbn [rbind] in E. destruct l as [|[t1 v1] l]; [discriminate|]. apply Ok_inj in E. subst s'. eexists. split; [reflexivity|].
        right. exists u, sw, new. conj; auto. congruence.
      * destruct (Z.ltb_spec (f_last s) new); [injection E as <-; exact N|]. destruct (imu_neighbours _ _); try discriminate. cbn [rbind] in E. injection E as <-. eexists. split; [reflexivity|].
        right. exists u, sw, new. conj; auto.
    + destruct (negb _ || _); injection E as <-; exact N.
    + destruct (if f_init s then _ else _); try discriminate. cbn [rbind] in E. destruct (integrate_imu _ _ _); try discriminate. cbn [rbind] in E. injection E as <-. apply X. reflexivity.
    + destruct (fc_baro c); [destruct (bar_state _ _); try discriminate|]; cbn [rbind] in E; injection E as <-; [apply X; apply Y|exact N].
Qed.
Lemma in_announced a b t : In t (announced (a ++ b)) <-> In t (announced a) \/ In t (announced b).
Proof. unfold announced, out_inits, out_spans. rewrite !flat_map_app, map_app, !in_app_iff. tauto. Qed.
Lemma fe_bias c s i s' : fe_step c s i = Ok s' -> f_bias s' = match i with IOdom t => t | _ => f_bias s end.
Proof.
  destruct i as [t v|t|t p|t|u sw|]; cbn [fe_step]; intros E.
  - unfold imu_callback in E. destruct (f_pre s); [|injection E as <-; reflexivity]. destruct (preintegrate _); try discriminate. cbn [rbind] in E. injection E as <-. reflexivity.
  - destruct (fc_stereo c); injection E as <-; [|reflexivity]. unfold stereo_callback. destruct (fc_graph_only c); reflexivity.
  - destruct (fc_baro c); [|injection E as <-; reflexivity]. destruct (bar_measure _ _); try discriminate. cbn [rbind] in E. injection E as <-. reflexivity.
  - unfold odometry_callback in E. destruct (imu_neighbours _ _); try discriminate. cbn [rbind] in E. destruct (catch_up _ _). destruct (preintegrate _); try discriminate. cbn [rbind] in E. injection E as <-. reflexivity.
  - destruct (f_pc s); try (injection E as <-; reflexivity). destruct (f_prev s) as [[pu psw]|]; injection E as <-; reflexivity.
  - unfold cloud_poll in E. destruct (f_pc s) eqn:Ep; try (injection E as <-; reflexivity); (destruct (f_prev s) as [[pu psw]|] eqn:Ev; [|injection E as <-; reflexivity]).
    + destruct (drop_before _ _) as [|t st]; [injection E as <-; reflexivity|]. destruct (t <? _); injection E as <-; reflexivity.
    + destruct (f_init s) eqn:Ei.
      * destruct (f_imu s) as [|[t0 v0] b] eqn:Eb; [discriminate|]. destruct (f_pst s <? t0); [discriminate|].
        destruct (select_imu _ _ _) as [l| |] in E; try discriminate. cbn [rbind] in E. destruct l as [|[t1 v1] l]; [discriminate|]. apply Ok_inj in E. subst s'. reflexivity.
      * destruct (f_last s <? new); [injection E as <-; reflexivity|]. destruct (imu_neighbours _ _); try discriminate. cbn [rbind] in E. injection E as <-. reflexivity.
    + destruct (negb _ || _); injection E as <-; reflexivity.
    + destruct (if f_init s then _ else _); try discriminate. cbn [rbind] in E. destruct (integrate_imu _ _ _); try discriminate. cbn [rbind] in E. injection E as <-. reflexivity.
    + destruct (fc_baro c); [destruct (bar_state _ _); try discriminate|]; cbn [rbind] in E; injection E as <-; reflexivity.
Qed.

(* clouds published or about to be *)
Definition paid (f : fe) (done : list rec) : nat := (List.length done + match f_pc f with PSkew _ _ _ | PBaro _ _ _ => 1 | _ => 0 end)%nat.
Lemma fe_paid c s i s' done : tinv s done -> fe_step c s i = Ok s' ->
  paid s' (next_done s i done) = paid s done \/
  (exists u sw new, i = IPoll /\ f_pc s = PBias u sw new /\ f_bias s = f_pst s /\ paid s' (next_done s i done) = S (paid s done)).
Proof.
  intros T. pose proof (t_phase _ _ T) as P. destruct i as [t v|t|t p|t|u sw|]; cbn [fe_step]; intros E; cbn [next_done].
  - left. unfold imu_callback in E. destruct (f_pre s); [|injection E as <-; reflexivity]. destruct (preintegrate _); try discriminate. cbn [rbind] in E. injection E as <-. reflexivity.
  - left. destruct (fc_stereo c); injection E as <-; [|reflexivity]. unfold stereo_callback. destruct (fc_graph_only c); reflexivity.
  - left. destruct (fc_baro c); [|injection E as <-; reflexivity]. destruct (bar_measure _ _); try discriminate. cbn [rbind] in E. injection E as <-. reflexivity.
  - left. unfold odometry_callback in E. destruct (imu_neighbours _ _); try discriminate. cbn [rbind] in E. destruct (catch_up _ _). destruct (preintegrate _); try discriminate. cbn [rbind] in E. injection E as <-. reflexivity.
  - left. unfold paid. destruct (f_pc s) eqn:Ep; try (injection E as <-; rewrite ?Ep; reflexivity). destruct (f_prev s) as [[pu psw]|]; injection E as <-; cbn; [destruct (fc_stereo c)|]; reflexivity.
  - unfold phase_ok in P. unfold cloud_poll in E. unfold paid. destruct (f_pc s) eqn:Ep; try (injection E as <-; rewrite ?Ep; auto; fail);
      destruct P as ([pu psw] & Ev & _); rewrite Ev in E.
    + left. destruct (drop_before _ _) as [|t st]; [injection E as <-; cbn; rewrite ?Ep; reflexivity|]. destruct (t <? _); injection E as <-; reflexivity.
    + left. destruct (f_init s) eqn:Ei.
      * destruct (f_imu s) as [|[t0 v0] b] eqn:Eb; [discriminate|]. destruct (f_pst s <? t0); [discriminate|].
        destruct (select_imu _ _ _) as [l| |] in E; try discriminate. cbn [rbind] in E. destruct l as [|[t1 v1] l]; [discriminate|]. apply Ok_inj in E. subst s'. reflexivity.
      * destruct (f_last s <? new); [injection E as <-; rewrite Ep; reflexivity|]. destruct (imu_neighbours _ _); try discriminate. cbn [rbind] in E. injection E as <-. reflexivity.
    + destruct (negb _ || _) eqn:Eb; injection E as <-; [left; rewrite Ep; reflexivity|]. right. exists u, sw, new. cbn. conj; auto; lia.
    + left. destruct (if f_init s then _ else _); try discriminate. cbn [rbind] in E. destruct (integrate_imu _ _ _); try discriminate. cbn [rbind] in E. injection E as <-. reflexivity.
    + left. assert (L : List.length (current s) = 1%nat) by (unfold current; rewrite Ep, Ev; reflexivity).
      destruct (fc_baro c); [destruct (bar_state _ _); try discriminate|]; cbn [rbind] in E; injection E as <-; cbn; rewrite app_length, L; lia.
Qed.

Definition states (f : fe) : list Z := announced (f_out f).
Lemma states_recs s done : tinv s done -> states s = map rt (done ++ current s).
Proof.
  intros T. unfold states, announced. rewrite (t_outi _ _ T), (t_outs _ _ T). set (l := map rt (done ++ current s)). clearbody l.
  destruct l as [|x l]; [reflexivity|]. cbn [firstn app]. f_equal. revert x. induction l as [|y l IH]; intros x; [reflexivity|]. cbn [pairs map snd]. f_equal. apply IH.
Qed.
Lemma states_up s done : tinv s done -> up (states s).
Proof. intros T. rewrite (states_recs _ _ T). apply tinv_up. exact T. Qed.
Lemma states_spans s done : tinv s done -> map snd (out_spans (f_out s)) = tl (states s) /\ out_inits (f_out s) = firstn 1 (states s).
Proof.
  intros T. rewrite (states_recs _ _ T), (t_outi _ _ T), (t_outs _ _ T). set (l := map rt (done ++ current s)). clearbody l. split; [|reflexivity].
  destruct l as [|x l]; [reflexivity|]. cbn [tl]. revert x. induction l as [|y l IH]; intros x; [reflexivity|]. cbn [pairs map snd]. f_equal. apply IH.
Qed.
Lemma states_grow s s' done done' o : tinv s done -> tinv s' done' -> f_out s' = f_out s ++ o -> exists x, states s' = states s ++ x.
Proof.
  intros T T' E. pose proof (t_outi _ _ T) as I. pose proof (t_outi _ _ T') as I'. pose proof (states_recs _ _ T) as R. rewrite <- (states_recs _ _ T) in I. rewrite <- (states_recs _ _ T') in I'.
  destruct (states s) as [|x l] eqn:Es; [exists (states s'); reflexivity|]. cbn in I.
  unfold states, announced in *. rewrite E in *. unfold out_inits, out_spans in *. rewrite !flat_map_app in *. rewrite map_app in *. rewrite I in *. cbn [app] in *.
  injection Es as Es. rewrite Es in *. destruct (flat_map _ o) as [|y q] eqn:Q in I'; cbn [firstn app] in I'.
  - rewrite Q. cbn [app]. eexists. reflexivity.
  - discriminate.
Qed.
Lemma cloud_grow s s' o : f_out s' = f_out s ++ o -> exists x, cloud_stamps s' = cloud_stamps s ++ x.
Proof. intros E. unfold cloud_stamps. rewrite E. unfold out_clouds. rewrite flat_map_app, map_app. eauto. Qed.

(* the clouds are the first states *)
Lemma clouds_states s done : tinv s done -> cloud_stamps s = firstn (List.length (cloud_stamps s)) (states s) /\
  (List.length done <= List.length (cloud_stamps s) <= paid s done)%nat /\ (List.length (states s) <= S (List.length done))%nat /\ (List.length (cloud_stamps s) <= List.length (states s))%nat.
Proof.
  intros T. assert (E : cloud_stamps s = map rt (done ++ clouded s)).
  { unfold cloud_stamps. rewrite (t_outc _ _ T), map_map. apply map_ext_in. intros r Hr. cbn. apply in_app_or in Hr. destruct Hr as [Hr|Hr].
    - pose proof (t_recs _ _ T) as F. rewrite Forall_forall in F. apply F. exact Hr.
    - pose proof (t_phase _ _ T) as P. unfold clouded, current, phase_ok in *. destruct (f_pc s) eqn:Ep; try destruct Hr. destruct P as (c0 & Ec & _ & Hk). rewrite Ec in Hr. destruct Hr as [<-|[]]. apply Hk. }
  assert (L : (List.length (clouded s) <= 1)%nat /\ (List.length (current s) <= 1)%nat /\ (clouded s = [] \/ clouded s = current s)).
  { unfold clouded, current. destruct (f_pc s), (f_prev s); cbn; auto. }
  destruct L as (L1 & L2 & L3). rewrite (states_recs _ _ T), E. split.
  { destruct L3 as [L3|L3]; rewrite L3; [|rewrite firstn_all; reflexivity]. rewrite app_nil_r, map_app, firstn_prefix. reflexivity. }
  rewrite !map_length, !app_length. split; [|split].
  - unfold paid, clouded in *. destruct (f_pc s); cbn in *; lia.
  - lia.
  - destruct L3 as [L3|L3]; rewrite L3; cbn; lia.
Qed.

(* every announced state has IMU data at or after it *)
Definition covered (h : list imu) (t : Z) : Prop := exists m, In m h /\ t <= fst m.

(* ---- back end ---- *)
Section Back.
Variable bp : Z -> Z -> Z -> Z -> Z.
Variable c : config.
Variable tau : Z -> Z.
Hypothesis He : environment c tau.

Lemma back_view hist s : hreach bp c tau hist s -> exists K U, -1 <= K /\ -1 <= U /\ odoms (y_ev s) = map (fun k => (k, tau k)) (zrange 0 K) /\ trans (y_ev s) = map tau (zrange 0 U) /\
  (0 <= K \/ 0 <= U -> len (on TInit hist) = 1) /\ (1 <= K -> K <= len (on TImu hist)) /\ (1 <= U -> U <= len (on TImu hist)) /\ (c_reg c = true -> 1 <= K -> K <= len (on TReg hist)).
Proof.
  intros H. destruct (hreach_healthy bp c tau _ _ He H) as (K & u & r & st & b & cb & fr & cal & B).
  pose proof (bi_rest _ _ _ _ _ _ _ _ _ _ _ _ B) as R. pose proof (bi_env _ _ _ _ _ _ _ _ _ _ _ _ B) as E.
  pose proof (rs_ev _ _ _ _ _ _ _ _ _ _ _ _ _ R) as L. pose proof (rs_phase _ _ _ _ _ _ _ _ _ _ _ _ _ R) as PH. destruct (settle_ev bp s) as [l El]. rewrite El in L.
  pose proof (ev_odoms _ _ _ _ L) as X. rewrite odoms_app in X. symmetry in X. apply map_prefix in X. destruct X as (a1 & a2 & E1 & X).
  pose proof (ev_trans _ _ _ _ L) as Y. rewrite trans_app in Y. symmetry in Y. apply map_prefix in Y. destruct Y as (b1 & b2 & E2 & Y).
  pose proof (zrange_prefix _ _ _ _ E1) as Z1. pose proof (zrange_prefix _ _ _ _ E2) as Z2.
  assert (ZL : forall a b, a <= b + 1 -> len (zrange a b) = b - a + 1) by (intros a0 b0 L0; unfold len, zrange; rewrite map_length, seq_length; lia).
  assert (PK : -1 <= K) by (destruct PH as [PH|PH]; lia).
  assert (A1 : len a1 <= K + 1). { pose proof (f_equal len E1) as Q. rewrite ZL, len_app in Q by lia. pose proof (len_nonneg a2). lia. }
  assert (A2 : len b1 <= (if K <? 0 then -1 else u) + 1). { pose proof (f_equal len E2) as Q. rewrite ZL, len_app in Q by (destruct (K <? 0) eqn:EK; destruct PH as [PH|PH]; lia). pose proof (len_nonneg b2). lia. }
  pose proof (len_nonneg a1). pose proof (len_nonneg b1).
  pose proof (en_init _ _ _ _ _ _ _ _ _ _ E) as [I1 I2]. pose proof (len_nonneg (pend (settle bp s) TInit)) as I3.
  pose proof (en_imu_bd _ _ _ _ _ _ _ _ _ _ E) as [U1 U2]. pose proof (en_reg_bd _ _ _ _ _ _ _ _ _ _ E) as G.
  exists (0 + len a1 - 1), (0 + len b1 - 1). rewrite X, Y. rewrite <- Z1, <- Z2. conj; try lia; auto.
  - intros D. destruct (Z.ltb_spec K 0); lia.
  - destruct PH as [PH|PH]; lia.
  - destruct (K <? 0); lia.
  - intros Hr. destruct PH as [PH|(P0 & P1 & P2 & P3 & _)]; [lia|]. rewrite Hr in P3. lia.
Qed.

(* the initial odometry is handled when the back end is at rest *)
Lemma rest_view hist s : enough_workers c -> hreach bp c tau hist s -> quiescent bp c s -> exists K U, odoms (y_ev s) = map (fun k => (k, tau k)) (zrange 0 K) /\ trans (y_ev s) = map tau (zrange 0 U) /\
  (on TInit hist <> [] -> 0 <= K) /\ (0 <= K -> K <= U /\ Z.min (K + 1) (len (on TImu hist)) <= U) /\ (forall k, supplied c tau hist k -> k <= K).
Proof.
  intros Hp H Q. pose proof Q as (Qm & Qd & Qw).
  destruct (hreach_healthy bp c tau _ _ He H) as (K & u & r & st & b & cb & fr & cal & B). rewrite settle_none in B by exact Qm.
  pose proof (bi_rest _ _ _ _ _ _ _ _ _ _ _ _ B) as R. pose proof (bi_env _ _ _ _ _ _ _ _ _ _ _ _ B) as E.
  pose proof (rs_phase _ _ _ _ _ _ _ _ _ _ _ _ _ R) as PH. pose proof (rs_ev _ _ _ _ _ _ _ _ _ _ _ _ _ R) as L.
  assert (Sh : forall t, pget (y_ctl s) t = CIdle \/ exists m l, pget (y_ctl s) t = CWant m l).
  { intros t. pose proof (bi_ctl _ _ _ _ _ _ _ _ _ _ _ _ B t) as X. destruct (pget (y_ctl s) t) as [|m l|m l| |] eqn:Ec; eauto; try contradiction.
    pose proof (reachable_excl _ _ _ (hreach_reach bp c tau _ _ H)) as Y. pose proof (ex_owner _ _ Y t) as O. rewrite Ec in O. specialize (O I). congruence. }
  assert (Bi : pget (y_ctl s) TInit = CIdle).
  { destruct (Sh TInit) as [X|(m & l & X)]; [exact X|]. destruct (blocked bp c tau _ _ _ _ _ _ _ _ _ _ _ _ _ He B Q X) as [[X1 _]|[[X1 _]|[X1 _]]]; discriminate. }
  assert (Br : pget (y_ctl s) TReg = CIdle).
  { destruct (Sh TReg) as [X|(m & l & X)]; [exact X|]. destruct (blocked bp c tau _ _ _ _ _ _ _ _ _ _ _ _ _ He B Q X) as [[X1 _]|[[X1 _]|[X1 _]]]; discriminate. }
  assert (Nb : forall t, subscribed c t = false -> busy (pget (y_ctl s) t) = false).
  { intros t Ht. pose proof (bi_sub _ _ _ _ _ _ _ _ _ _ _ _ B t Ht) as X. unfold pend in X. apply app_eq_nil in X. destruct X as [X1 X2].
    destruct (Sh t) as [X|(m & l & X)]; rewrite X in *; [reflexivity|discriminate]. }
  assert (Wk : (workers s <= b2n (busy (p_u (y_ctl s))) + b2n (c_stereo c) + b2n (c_baro c))%nat).
  { rewrite workers_sum. change (p_i (y_ctl s)) with (pget (y_ctl s) TInit). change (p_r (y_ctl s)) with (pget (y_ctl s) TReg). rewrite Bi, Br. cbn [busy b2n].
    pose proof (Nb TStereo) as N1. pose proof (Nb TBaro) as N2. cbn [subscribed pget] in N1, N2.
    destruct (c_stereo c), (c_baro c), (busy (p_s (y_ctl s))), (busy (p_b (y_ctl s))); try (specialize (N1 eq_refl)); try (specialize (N2 eq_refl)); try discriminate; cbn; lia. }
  unfold enough_workers in Hp.
  assert (HI : on TInit hist <> [] -> 0 <= K).
  { intros N. destruct (Z.lt_ge_cases K 0) as [LK|LK]; [exfalso|exact LK]. assert (EK : K = -1) by (destruct PH as [PH|PH]; lia).
    destruct PH as [PH|PH]; [|lia]. destruct PH as (_ & -> & _).
    assert (W : (workers s < c_pool c)%nat).
    { destruct (busy (p_u (y_ctl s))) eqn:Bu; [|unfold b2n in Wk; destruct (c_reg c), (c_stereo c), (c_baro c); lia].
      exfalso. destruct (Sh TImu) as [X|(m & l & X)]; [cbn [pget] in X; rewrite X in Bu; discriminate|].
      pose proof (en_imu _ _ _ _ _ _ _ _ _ _ E) as Y. destruct (en_imu_bd _ _ _ _ _ _ _ _ _ _ E) as [_ Y2].
      assert (len (on TImu hist) <> 0). { intros Z0. rewrite Z0 in Y. unfold pend in Y. rewrite X in Y. discriminate. } specialize (Y2 H0). lia. }
    pose proof (free_dispatch bp c s TInit Qd Bi W) as X. pose proof (en_init _ _ _ _ _ _ _ _ _ _ E) as [Y _]. unfold pend in Y. rewrite Bi, X in Y. cbn [ctl_msgs app] in Y.
    replace (K <? 0) with true in Y by lia. destruct (on TInit hist); [congruence|]. rewrite len_cons in Y. unfold len in Y. cbn in Y. lia. }
  exists K, (if K <? 0 then -1 else u). conj; auto; try apply L.
  - intros HK. destruct PH as [PH|(_ & PU & PI & PR & PS & PB & PN)]; [lia|]. replace (K <? 0) with false by lia. split; [lia|]. pose proof (en_imu_bd _ _ _ _ _ _ _ _ _ _ E) as [U1 _].
    destruct (Z.eq_dec K u) as [EK|NK]; [|lia].
    assert (P0 : pend s TImu = []).
    { unfold pend. destruct (Sh TImu) as [X|(m & l & X)].
      - rewrite X. cbn [ctl_msgs app]. apply (free_dispatch bp c); auto. cbn [pget] in X. rewrite X in Wk. cbn [busy b2n] in Wk. unfold b2n in Wk. destruct (c_reg c), (c_stereo c), (c_baro c); lia.
      - destruct (blocked bp c tau _ _ _ _ _ _ _ _ _ _ _ _ _ He B Q X) as [[_ X1]|[[X1 _]|[X1 _]]]; [congruence|discriminate|discriminate]. }
    pose proof (en_imu _ _ _ _ _ _ _ _ _ _ E) as X. rewrite P0 in X. destruct (Z.le_gt_cases (u + 1) (len (on TImu hist))) as [C|C]; [|lia]. rewrite zrange_cons in X by lia. discriminate.
  - intros k Hk. pose proof (quiescent_done bp c tau hist s He Hp H Q k Hk) as X. rewrite (lv_opts _ _ _ _ _ _ _ (rs_log _ _ _ _ _ _ _ _ _ _ _ _ _ R)) in X. apply in_zrange in X. lia.
Qed.
End Back.
