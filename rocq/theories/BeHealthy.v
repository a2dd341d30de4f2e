(* The back end in a healthy environment: no callback fails, keys advance in lock step, keys are optimised once and
   in order, and everything that can be optimised is optimised when the system comes to rest. *)
From Verif Require Import Base GmModel GmSpec GmInv GmProofs GmFactors GmValues GmHist GmKeys GmStereo GmIds GmReady.
From Verif Require Import BeModel BeSpec BeProofs BeEff BeAbs BeInv BeSect.

(* ---- delivered messages ---- *)
Definition stamp (m : msg) : Z :=
  match m with MInit t _ _ _ _ _ _ _ => t | MImu t _ _ _ _ _ => t | MReg t _ _ _ _ => t | MStereo t _ _ _ _ => t | MBaro t _ _ _ _ => t end.
Definition tid_eqb (a b : tid) : bool :=
  match a, b with TInit, TInit | TImu, TImu | TReg, TReg | TStereo, TStereo | TBaro, TBaro => true | _, _ => false end.
Definition on (t : tid) (l : list msg) : list msg := filter (fun m => tid_eqb (msg_tid m) t) l.
Definition frames (l : list msg) : list (omap Z) :=
  flat_map (fun m => match m with MStereo _ (Some f) _ _ _ => [f] | _ => [] end) l.
Definition len {A} (l : list A) : Z := Z.of_nat (List.length l).

Section Env.
Variable tau : Z -> Z.

(* a message as sent by a front end whose numerical work succeeds *)
Definition msg_ok (m : msg) : Prop :=
  match m with
  | MInit t _ _ _ sp sv nz n => t = tau 0 /\ sp = true /\ sv = true /\ nz = true /\ good n
  | MImu _ _ ne pr fi n => ne = true /\ pr = true /\ fi = true /\ good n
  | MReg _ _ va ze n => va = false /\ ze = false /\ good n
  | MStereo _ f ba _ n => ba = true /\ good n /\
      exists fm, f = Some fm /\ msorted fm /\ forall id, mget id fm <> None -> 0 <= id < 2 ^ 56
  | MBaro _ _ vp nz n => vp = true /\ nz = true /\ good n
  end.

(* when a message may arrive, given those delivered before and what has been published:
   one initial odometry; IMU arrays end at consecutive state times and follow the first odometry; registration
   results are for consecutive states whose transform has been published; stereo features at any time, with ids
   tracked without interruption; barometer messages at state times, in increasing order *)
Definition allowed (hist : list msg) (ev : list event) (m : msg) : Prop :=
  msg_ok m /\
  match m with
  | MInit _ _ _ _ _ _ _ _ => on TInit hist = []
  | MImu t _ _ _ _ _ => t = tau (len (on TImu hist) + 1) /\ len (on TImu hist) + 1 < int_max /\ odoms ev <> []
  | MReg t _ _ _ _ => t = tau (len (on TReg hist) + 1) /\ In t (trans ev)
  | MStereo _ f _ _ _ => contiguous (frames hist ++ frames [m])
  | MBaro t _ _ _ _ => exists j, 0 <= j /\ t = tau j /\ forall m', In m' (on TBaro hist) -> stamp m' < t
  end.

Inductive sublist {A} : list A -> list A -> Prop :=
| sub_nil : sublist [] []
| sub_keep x a b : sublist a b -> sublist (x :: a) (x :: b)
| sub_skip x a b : sublist a b -> sublist a (x :: b).

Lemma sublist_index {A} (a b : list A) : sublist a b ->
  exists f : nat -> nat, (forall i j, (i <= j)%nat -> (f i <= f j)%nat) /\ forall i, (i < List.length a)%nat -> nth_error a i = nth_error b (f i).
Proof.
  induction 1 as [|x a b H (f & F1 & F2)|x a b H (f & F1 & F2)].
  - exists (fun i => i). split; [auto|]. cbn. lia.
  - exists (fun i => match i with O => O | S i => S (f i) end). split.
    + intros [|i] [|j]; try lia. intros L. specialize (F1 i j). lia.
    + intros [|i]; cbn; [reflexivity|]. intros L. apply F2. lia.
  - exists (fun i => S (f i)). split.
    + intros i j L. specialize (F1 i j L). lia.
    + intros i L. cbn. apply F2. exact L.
Qed.
Lemma sublist_contiguous a b : sublist a b -> contiguous b -> contiguous a.
Proof.
  intros S C. destruct (sublist_index a b S) as (f & F1 & F2). intros i j l x y z id Hij Hjl Ex Ey Ez.
  assert (Li : (i < List.length a)%nat) by (apply nth_error_Some; congruence).
  assert (Lj : (j < List.length a)%nat) by (apply nth_error_Some; congruence).
  assert (Ll : (l < List.length a)%nat) by (apply nth_error_Some; congruence).
  rewrite F2 in Ex, Ey, Ez by assumption. apply (C (f i) (f j) (f l) x y z id); auto.
Qed.
Lemma sublist_refl {A} (a : list A) : sublist a a.
Proof. induction a; constructor; auto. Qed.
Lemma sublist_app {A} (a b a' b' : list A) : sublist a b -> sublist a' b' -> sublist (a ++ a') (b ++ b').
Proof. induction 1; intros; cbn; auto; constructor; auto. Qed.
Lemma sublist_trans {A} (a b c : list A) : sublist b c -> sublist a b -> sublist a c.
Proof.
  intros H. revert a. induction H as [|x b c H IH|x b c H IH]; intros a S; auto.
  - inversion S; subst; constructor; auto.
  - constructor. auto.
Qed.
Lemma sublist_pre {A} (a b : list A) : sublist a (a ++ b).
Proof. rewrite <- (app_nil_r a) at 1. apply sublist_app; [apply sublist_refl|]. induction b; constructor; auto. Qed.
Lemma sublist_drop {A} (a b : list A) x : sublist (a ++ b) (a ++ x :: b).
Proof. apply sublist_app; [apply sublist_refl|]. constructor. apply sublist_refl. Qed.

Lemma on_app t a b : on t (a ++ b) = on t a ++ on t b. Proof. apply filter_app. Qed.
Lemma frames_app a b : frames (a ++ b) = frames a ++ frames b. Proof. apply flat_map_app. Qed.
Lemma tid_eqb_refl t : tid_eqb t t = true. Proof. destruct t; reflexivity. Qed.
Lemma tid_eqb_ne a b : a <> b -> tid_eqb a b = false. Proof. destruct a, b; auto; congruence. Qed.
Lemma len_app {A} (a b : list A) : len (a ++ b) = len a + len b.
Proof. unfold len. rewrite app_length. lia. Qed.
Lemma len_cons {A} (x : A) b : len (x :: b) = len b + 1.
Proof. unfold len. cbn [List.length]. lia. Qed.
Lemma len_nonneg {A} (a : list A) : 0 <= len a. Proof. unfold len. lia. Qed.

(* ---- pending messages against the key counters ---- *)
Record env (hist : list msg) (P : tid -> list msg) (K u r st b cb : Z) (fr : list (omap Z)) : Prop := {
  en_msg : forall t m, In m (P t) -> msg_ok m /\ msg_tid m = t;
  en_init : len (P TInit) = len (on TInit hist) - (if K <? 0 then 0 else 1) /\ len (on TInit hist) <= 1;
  en_imu : map stamp (P TImu) = map tau (zrange (u + 1) (len (on TImu hist)));
  en_imu_bd : u <= len (on TImu hist) < int_max /\ (len (on TImu hist) <> 0 -> 0 <= K);
  en_reg : map stamp (P TReg) = map tau (zrange (r + 1) (len (on TReg hist)));
  en_reg_bd : r <= len (on TReg hist) <= u;
  en_cont : contiguous (frames hist);
  en_sub : sublist (fr ++ frames (P TStereo)) (frames hist);
  en_st : exists don, map stamp (on TStereo hist) = don ++ map stamp (P TStereo) /\ Forall (fun t => t < tau (st + 1)) don;
  en_baro : StronglySorted Z.lt (map stamp (on TBaro hist)) /\ exists don, map stamp (on TBaro hist) = don ++ map stamp (P TBaro);
  en_bj : forall m, In m (P TBaro) -> exists j, b <= j /\ stamp m = tau j;
  en_bdone : cb = 0 \/ In (tau (cb - 1)) (map stamp (on TBaro hist)) }.

Definition loc_ok (b cb : Z) (x : ctl) : Prop :=
  match x with
  | CWant _ (LNext n _) | CHold _ (LNext n _) => n = cb
  | _ => cb = b
  end.
Definition ctl_msgs (x : ctl) : list msg := match x with CWant m _ | CHold m _ | CRun m _ => [m] | _ => [] end.
Definition pend (s : sys) (t : tid) : list msg := ctl_msgs (pget (y_ctl s) t) ++ pget (y_q s) t.

Lemma zrange_cons a b : a <= b -> zrange a b = a :: zrange (a + 1) b.
Proof.
  intros H. unfold zrange. replace (Z.to_nat (b - a + 1)) with (S (Z.to_nat (b - (a + 1) + 1))) by lia.
  cbn [seq map]. f_equal; [lia|]. rewrite <- seq_shift, map_map. apply map_ext. intros. lia.
Qed.

Definition mono := forall i k, 0 <= i < k -> tau i < tau k.
Lemma tau_inj i k : mono -> 0 <= i -> 0 <= k -> tau i = tau k -> i = k.
Proof. intros M Hi Hk E. destruct (Z.lt_trichotomy i k) as [H|[H|H]]; auto; [specialize (M i k)|specialize (M k i)]; lia. Qed.
Lemma tau_lt i k : mono -> 0 <= i -> 0 <= k -> tau i < tau k -> i < k.
Proof. intros M Hi Hk E. destruct (Z.lt_trichotomy i k) as [H|[H|H]]; auto; [subst; lia|specialize (M k i); lia]. Qed.

Lemma ss_app_lt l1 : forall l2 x y, StronglySorted Z.lt (l1 ++ l2) -> In x l1 -> In y l2 -> x < y.
Proof.
  induction l1 as [|a l1 IH]; cbn; intros l2 x y S Hx Hy; [contradiction|].
  apply StronglySorted_inv in S. destruct S as [S F]. destruct Hx as [->|Hx].
  - rewrite Forall_forall in F. apply F. apply in_or_app. auto.
  - eapply IH; eauto.
Qed.
Lemma ss_snoc l x : StronglySorted Z.lt l -> (forall y, In y l -> y < x) -> StronglySorted Z.lt (l ++ [x]).
Proof.
  induction l as [|a l IH]; cbn; intros S H.
  - constructor; constructor.
  - apply StronglySorted_inv in S. destruct S as [S F]. constructor.
    + apply IH; auto.
    + apply Forall_app. split; [exact F|]. constructor; [apply H; auto|constructor].
Qed.

Lemma nil_of_len {A} (l : list A) : len l <= 0 -> l = [].
Proof. destruct l; [reflexivity|]. rewrite len_cons. pose proof (len_nonneg l). lia. Qed.

(* ---- delivery ---- *)
Definition padd (P : tid -> list msg) (m : msg) : tid -> list msg :=
  fun t => if tid_eqb (msg_tid m) t then P t ++ [m] else P t.

Lemma env_deliver c hist P K u r st b cb fr ev m : mono -> phase c K u r st b cb ->
  odoms ev = map (fun k => (k, tau k)) (zrange 0 K) -> trans ev = map tau (zrange 0 (if K <? 0 then -1 else u)) ->
  (b = cb \/ P TBaro <> []) ->
  env hist P K u r st b cb fr -> allowed hist ev m -> env (hist ++ [m]) (padd P m) K u r st b cb fr.
Proof.
  intros M PH Ho Ht Hb E [Hm Ha]. destruct E.
  assert (Hu : 0 <= u /\ 0 <= r /\ 0 <= b /\ 0 <= cb).
  { destruct PH as [PH|PH]; [lia|]. destruct (c_reg c), (c_baro c); lia. }
  assert (Hmsg : forall t m0, In m0 (padd P m t) -> msg_ok m0 /\ msg_tid m0 = t).
  { intros t m0. unfold padd. destruct (tid_eqb (msg_tid m) t) eqn:Et; [|apply en_msg0].
    intros Hi. apply in_app_or in Hi. destruct Hi as [Hi|[<-|[]]]; [apply en_msg0; exact Hi|]. split; [exact Hm|].
    destruct m, t; try reflexivity; discriminate. }
  destruct m as [t p v bi sp sv nz n|t me ne pr fi n|t tf va ze n|t f ba ca n|t pr vp nz n]; cbn [allowed] in Ha;
    constructor; try exact Hmsg; unfold padd; cbn [msg_tid tid_eqb]; rewrite ?on_app, ?frames_app; cbn [on filter msg_tid tid_eqb]; rewrite ?app_nil_r; auto.
  - rewrite Ha in *. cbn [app]. rewrite len_app. change (len [MInit t p v bi sp sv nz n]) with 1. change (@len msg []) with 0 in *. lia.
  - rewrite len_app. change (len [MImu t me ne pr fi n]) with 1. destruct Ha as (-> & H1 & H2). rewrite zrange_snoc by lia.
    rewrite !map_app, en_imu0. reflexivity.
  - rewrite len_app. change (len [MImu t me ne pr fi n]) with 1. destruct Ha as (-> & H1 & H2). split; [lia|]. intros _.
    rewrite Ho in H2. destruct (Z.lt_ge_cases K 0); [|lia]. rewrite zrange_nil in H2 by lia. destruct H2. reflexivity.
  - rewrite len_app. change (len [MReg t tf va ze n]) with 1. destruct Ha as (-> & H1). rewrite zrange_snoc by lia.
    rewrite !map_app, en_reg0. reflexivity.
  - rewrite len_app. change (len [MReg t tf va ze n]) with 1. destruct Ha as (-> & H1). split; [lia|].
    rewrite Ht in H1. apply in_map_iff in H1. destruct H1 as (i & Ei & Hi). apply in_zrange in Hi.
    apply tau_inj in Ei; auto; try lia. destruct (Z.ltb_spec K 0); lia.
  - rewrite app_assoc. apply sublist_app; [exact en_sub0|apply sublist_refl].
  - destruct en_st0 as (don & E1 & E2). exists don. rewrite !map_app, E1, app_assoc. auto.
  - destruct en_baro0 as (S & don & E1). split.
    + rewrite map_app. apply ss_snoc; auto. intros y Hy. destruct Ha as (j & _ & _ & Hj). apply in_map_iff in Hy.
      destruct Hy as (m' & <- & Hm'). cbn [stamp]. apply Hj. exact Hm'.
    + exists don. rewrite !map_app, E1, app_assoc. reflexivity.
  - intros m' Hm'. apply in_app_or in Hm'. destruct Hm' as [Hm'|[<-|[]]]; [apply en_bj0; exact Hm'|].
    destruct Ha as (j & Hj0 & -> & Hj). exists j. split; [|reflexivity].
    destruct (P TBaro) as [|m1 P'] eqn:EP.
    + destruct Hb as [->|Hb]; [|congruence]. destruct en_bdone0 as [->|Hi]; [lia|]. apply in_map_iff in Hi.
      destruct Hi as (m' & E' & Hm'). apply Hj in Hm'. rewrite E' in Hm'. cbn [stamp] in Hm'.
      destruct (Z.eq_dec cb 0); [lia|]. apply tau_lt in Hm'; auto; lia.
    + destruct (en_bj0 m1) as (j1 & H1 & E1); [left; auto|].
      assert (stamp m1 < tau j).
      { destruct en_baro0 as (_ & don & E). assert (X : In (stamp m1) (map stamp (on TBaro hist))).
        { rewrite E. apply in_or_app. right. left. reflexivity. }
        apply in_map_iff in X. destruct X as (m' & E' & Hm'). rewrite <- E'. apply Hj. exact Hm'. }
      rewrite E1 in H. apply tau_lt in H; auto; lia.
  - rewrite map_app. destruct en_bdone0 as [X|X]; [left; exact X|right; apply in_or_app; auto].
Qed.

(* ---- sections ---- *)
Definition pdrop (P : tid -> list msg) (t : tid) : tid -> list msg := fun t' => if tid_eqb t t' then tl (P t') else P t'.

Lemma env_ext hist P P' K u r st b cb fr : (forall t, P t = P' t) -> env hist P K u r st b cb fr -> env hist P' K u r st b cb fr.
Proof.
  intros H E. destruct E. constructor; rewrite <- ?H; auto.
  intros t m. rewrite <- H. apply en_msg0.
Qed.
Lemma env_K hist P K K' u r st b cb fr : 0 <= K -> K <= K' -> env hist P K u r st b cb fr -> env hist P K' u r st b cb fr.
Proof.
  intros H0 HK E. destruct E. constructor; auto.
  - replace (K' <? 0) with false by lia. replace (K <? 0) with false in en_init0 by lia. exact en_init0.
  - lia.
Qed.
Lemma drop_msg hist P K u r st b cb fr t : env hist P K u r st b cb fr -> forall t' m, In m (pdrop P t t') -> msg_ok m /\ msg_tid m = t'.
Proof.
  intros E t' m. unfold pdrop. intros Hi. apply (en_msg _ _ _ _ _ _ _ _ _ E). destruct (tid_eqb t t'); [|exact Hi].
  destruct (P t'); [contradiction|right; exact Hi].
Qed.

Lemma env_init_done hist P q m fr : env hist P (-1) 0 0 (-1) 0 0 fr -> P TInit = m :: q ->
  env hist (pdrop P TInit) 0 0 0 (-1) 0 0 fr.
Proof.
  intros E EP. pose proof (drop_msg _ _ _ _ _ _ _ _ _ TInit E) as DM. destruct E. constructor; auto; unfold pdrop in *; cbn [tid_eqb] in *; auto.
  - rewrite EP in *. cbn [tl]. rewrite len_cons in en_init0. change (-1 <? 0) with true in en_init0. change (0 <? 0) with false. lia.
  - lia.
Qed.
Lemma env_imu_done hist P q m K u r st b cb fr : env hist P K u r st b cb fr -> P TImu = m :: q -> 0 <= u ->
  stamp m = tau (u + 1) /\ u + 1 < int_max /\ 0 <= K /\ env hist (pdrop P TImu) K (u + 1) r st b cb fr.
Proof.
  intros E EP Hu. pose proof (drop_msg _ _ _ _ _ _ _ _ _ TImu E) as DM. destruct E. rewrite EP in en_imu0.
  destruct (Z.lt_ge_cases u (len (on TImu hist))) as [L|L].
  2:{ rewrite zrange_nil in en_imu0 by lia. discriminate. }
  rewrite zrange_cons in en_imu0 by lia. cbn [map] in en_imu0. injection en_imu0 as E1 E2.
  split; [exact E1|]. split; [lia|]. split; [lia|].
  constructor; auto; unfold pdrop in *; cbn [tid_eqb] in *; auto; rewrite ?EP; cbn [tl]; auto; lia.
Qed.
Lemma env_reg_done hist P q m K u r st b cb fr : env hist P K u r st b cb fr -> P TReg = m :: q -> 0 <= r ->
  stamp m = tau (r + 1) /\ r + 1 <= u /\ env hist (pdrop P TReg) K u (r + 1) st b cb fr.
Proof.
  intros E EP Hu. pose proof (drop_msg _ _ _ _ _ _ _ _ _ TReg E) as DM. destruct E. rewrite EP in en_reg0.
  destruct (Z.lt_ge_cases r (len (on TReg hist))) as [L|L].
  2:{ rewrite zrange_nil in en_reg0 by lia. discriminate. }
  rewrite zrange_cons in en_reg0 by lia. cbn [map] in en_reg0. injection en_reg0 as E1 E2.
  split; [exact E1|]. split; [lia|].
  constructor; auto; unfold pdrop in *; cbn [tid_eqb] in *; auto; rewrite ?EP; cbn [tl]; auto; lia.
Qed.
Lemma env_stereo_head hist P q t fm ba ca n K u r st b cb fr : env hist P K u r st b cb fr ->
  P TStereo = MStereo t (Some fm) ba ca n :: q -> contiguous (fr ++ [fm]).
Proof.
  intros E EP. destruct E. apply (sublist_contiguous _ (frames hist)); auto.
  eapply sublist_trans; [exact en_sub0|]. rewrite EP. cbn [frames flat_map]. cbn [app].
  apply sublist_app; [apply sublist_refl|]. apply (sublist_pre [fm]).
Qed.
Lemma env_stereo_drop hist P q t fm ba ca n K u r st b cb fr : env hist P K u r st b cb fr ->
  P TStereo = MStereo t (Some fm) ba ca n :: q -> t < tau (st + 1) -> env hist (pdrop P TStereo) K u r st b cb fr.
Proof.
  intros E EP Ht. pose proof (drop_msg _ _ _ _ _ _ _ _ _ TStereo E) as DM. destruct E.
  constructor; auto; unfold pdrop in *; cbn [tid_eqb] in *; auto; rewrite ?EP in *; cbn [tl].
  - eapply sublist_trans; [exact en_sub0|]. cbn [frames flat_map app]. apply sublist_drop.
  - destruct en_st0 as (don & E1 & E2). exists (don ++ [t]). rewrite E1. cbn [map stamp]. rewrite <- app_assoc. split; [reflexivity|].
    apply Forall_app. auto.
Qed.
Lemma env_stereo_done hist P q t fm ba ca n K u r st b cb fr : mono -> -1 <= st -> env hist P K u r st b cb fr ->
  P TStereo = MStereo t (Some fm) ba ca n :: q -> t = tau (st + 1) -> env hist (pdrop P TStereo) K u r (st + 1) b cb (fr ++ [fm]).
Proof.
  intros M Hs E EP Ht. pose proof (drop_msg _ _ _ _ _ _ _ _ _ TStereo E) as DM. destruct E.
  assert (tau (st + 1) < tau (st + 1 + 1)) by (apply M; lia).
  constructor; auto; unfold pdrop in *; cbn [tid_eqb] in *; auto; rewrite ?EP in *; cbn [tl].
  - rewrite <- app_assoc. exact en_sub0.
  - destruct en_st0 as (don & E1 & E2). exists (don ++ [t]). rewrite E1. cbn [map stamp]. rewrite <- app_assoc. split; [reflexivity|].
    apply Forall_app. split; [|constructor; [lia|constructor]]. eapply Forall_impl; [|exact E2]. cbn. intros. lia.
Qed.
Lemma env_stereo_again hist P K u r st b cb fr : mono -> -1 <= st -> env hist P K u r st b cb fr -> env hist P K u r (st + 1) b cb fr.
Proof.
  intros M Hs E. destruct E. assert (tau (st + 1) < tau (st + 1 + 1)) by (apply M; lia). constructor; auto.
  destruct en_st0 as (don & E1 & E2). exists don. split; [auto|]. eapply Forall_impl; [|exact E2]. cbn. intros. lia.
Qed.
Lemma baro_rest hist P q m K u r st b cb fr j : mono -> 0 <= b -> env hist P K u r st b cb fr -> P TBaro = m :: q -> stamp m = tau j -> b <= j ->
  forall m', In m' q -> exists j', j + 1 <= j' /\ stamp m' = tau j'.
Proof.
  intros M Hb E EP Ej Hj m' Hm'. destruct E. destruct (en_bj0 m') as (j' & Hj' & Ej'). { rewrite EP. right. exact Hm'. }
  exists j'. split; [|exact Ej']. destruct en_baro0 as (S & don & Ed). rewrite EP in Ed. rewrite Ed in S. cbn [map] in S.
  assert (X : stamp m < stamp m').
  { change (stamp m :: map stamp q) with ([stamp m] ++ map stamp q) in S. rewrite app_assoc in S.
    eapply ss_app_lt; [exact S| |apply in_map; exact Hm']. apply in_or_app. right. left. reflexivity. }
  rewrite Ej, Ej' in X. apply tau_lt in X; auto; lia.
Qed.
Lemma env_baro_again hist P q m K u r st b cb fr j : mono -> 0 <= b -> env hist P K u r st b cb fr -> P TBaro = m :: q -> stamp m = tau j -> b < j ->
  env hist P K u r st (b + 1) cb fr.
Proof.
  intros M Hb E EP Ej Hj. pose proof (baro_rest _ _ _ _ _ _ _ _ _ _ _ j M Hb E EP Ej ltac:(lia)) as R. destruct E. constructor; auto.
  rewrite EP. intros m' [<-|Hm'].
  - exists j. split; [lia|exact Ej].
  - destruct (R m' Hm') as (j' & H1 & H2). exists j'. split; [lia|exact H2].
Qed.
Lemma env_baro_done hist P q m K u r st b cb fr : mono -> 0 <= b -> env hist P K u r st b cb fr -> P TBaro = m :: q -> stamp m = tau b ->
  env hist (pdrop P TBaro) K u r st (b + 1) (b + 1) fr.
Proof.
  intros M Hb E EP Ej. pose proof (baro_rest _ _ _ _ _ _ _ _ _ _ _ b M Hb E EP Ej ltac:(lia)) as R.
  pose proof (drop_msg _ _ _ _ _ _ _ _ _ TBaro E) as DM. destruct E.
  constructor; auto; unfold pdrop in *; cbn [tid_eqb] in *; auto; rewrite ?EP in *; cbn [tl]; auto.
  - destruct en_baro0 as (S & don & Ed). split; [exact S|]. exists (don ++ [stamp m]). rewrite Ed. cbn [map]. rewrite <- app_assoc. reflexivity.
  - right. destruct en_baro0 as (S & don & Ed). rewrite Ed. apply in_or_app. right. left. rewrite Ej. f_equal. lia.
Qed.
End Env.

(* ---- sections that create no factor of a kind ---- *)
Fixpoint avoids (kd : fkind) (p : prog) : Prop :=
  match p with
  | PRet _ | PThrow => True
  | PCall op k => crts kd [op] = [] /\ avoids kd k
  | PRead k => forall g, avoids kd (k g)
  | PEmit _ k => avoids kd k
  end.
Lemma avoids_rd {A} kd (q : igm -> res A) k : (forall a, avoids kd (k a)) -> avoids kd (rd q k).
Proof. intros H g. cbn. destruct (q g); cbn; auto. Qed.
Ltac av0 := repeat (first
  [ assumption | exact I | apply avoids_rd; intros | progress cbv beta
  | match goal with
    | |- avoids _ (PCall _ _) => split; [reflexivity|]
    | |- _ /\ _ => split; [reflexivity|]
    | |- avoids _ (PEmit _ _) => cbn [avoids]
    | |- avoids _ (PRead _) => intro
    | |- avoids _ (PRet _) => exact I
    | |- avoids _ PThrow => exact I
    | |- avoids _ (if ?b then _ else _) => destruct b
    | |- avoids _ (match ?b with _ => _ end) => destruct b
    | |- avoids _ ((if ?b then _ else _) _) => destruct b
    end ]).
Lemma avoids_publish kd c k p : avoids kd p -> avoids kd (p_publish c k p).
Proof. intros H. unfold p_publish. av0. Qed.
Ltac av := repeat (first [apply avoids_publish | av0]).
Lemma section_avoids kd c ok m l : kd = FBaro \/ kd = FPriorBaro -> msg_tid m <> TBaro -> avoids kd (section c ok m l).
Proof.
  intros Hk Hm. destruct m as [t p v bi sp sv nz n|t me ne pr fi n|t tf va ze n|t f ba ca n|t pr vp nz n]; cbn [section]; [| | | |destruct (Hm eq_refl)].
  all: destruct Hk as [-> | ->]; unfold p_init, p_imu, p_reg, p_stereo, p_add_stereo, p_opt_pub, p_optimise, p_velocity; av.
Qed.
Lemma avoids_prun bp kd p : avoids kd p -> forall g log ev, crts kd (snd (fst (fst (prun bp p g log ev)))) = crts kd log.
Proof.
  induction p as [o| |op k IH|k IH|e k IH]; cbn [avoids prun]; intros A g log ev; auto.
  destruct A as [A1 A2].
  assert (X : crts kd (log ++ [op]) = crts kd log) by (rewrite crts_app, A1, app_nil_r; reflexivity).
  destruct (gm_step bp g op) as [g' [x| |]]; cbn; auto. rewrite IH; auto.
Qed.

(* ---- executions ---- *)
Section Healthy.
Variable bp : Z -> Z -> Z -> Z -> Z.
Variable c : config.
Variable tau : Z -> Z.

Definition internal (a : act) : Prop := match a with ADispatch _ | ALock _ | AStep _ => True | _ => False end.

(* states reached when the environment delivers the messages [hist], each allowed when it arrives, and ROS is not
   shut down; the steps of the callbacks interleave arbitrarily *)
Inductive hreach : list msg -> sys -> Prop :=
| h_init : hreach [] (sys_init bp c)
| h_deliver hist s m s' : hreach hist s -> allowed tau hist (y_ev s) m -> sys_step bp c s (ADeliver m) = Some s' -> hreach (hist ++ [m]) s'
| h_step hist s a s' : hreach hist s -> internal a -> sys_step bp c s a = Some s' -> hreach hist s'.

Definition working : bool := c_imu c || c_reg c || c_stereo c.

Record binv (hist : list msg) (s : sys) (K u r st b cb : Z) (fr : list (omap Z)) (cal : bool) : Prop := {
  bi_rest : rest c tau K u r st b cb fr cal (y_g s) (y_log s) (y_ev s);
  bi_ok : y_ok s = true;
  bi_ctl : forall t, match pget (y_ctl s) t with CRun _ _ | CFail _ => False | _ => True end;
  bi_env : env tau hist (pend s) K u r st b cb fr;
  bi_loc : loc_ok b cb (pget (y_ctl s) TBaro);
  bi_bar : cb = last (map (fun k => k + 1) (crts FBaro (y_log s))) 0;
  bi_bpos : Forall (fun k => 0 <= k) (crts FBaro (y_log s));
  bi_prior : crts FPriorBaro (y_log s) = firstn 1 (crts FBaro (y_log s));
  bi_used : map stamp (on TBaro hist) = map tau (crts FBaro (y_log s)) ++ map stamp (pend s TBaro);
  bi_sub : forall t, subscribed c t = false -> pend s t = [] }.

Definition healthy (hist : list msg) (s : sys) : Prop := exists K u r st b cb fr cal, binv hist s K u r st b cb fr cal.

(* outcome of a complete section *)
Lemma wp_complete p s t m Q : wp bp p (y_g s) (y_log s) (y_ev s) Q ->
  exists g log ev o, (Q g log ev o /\ prun bp p (y_g s) (y_log s) (y_ev s) = (g, log, ev, ROut o)) /\ complete bp s t m p = finish (mkSys g log ev (y_mutex s) (y_ctl s) (y_q s) (y_ok s)) t m o.
Proof.
  unfold wp, complete. destruct (prun bp p (y_g s) (y_log s) (y_ev s)) as [[[g lg] e] [o|]]; [|contradiction].
  intros H. exists g, lg, e, o. auto.
Qed.

Lemma pend_upd g log ev mu ct q ok t x t' : pend (mkSys g log ev mu (upd ct t x) q ok) t' =
  if tid_eqb t t' then ctl_msgs x ++ pget q t' else ctl_msgs (pget ct t') ++ pget q t'.
Proof.
  unfold pend. cbn [y_ctl y_q]. destruct (tid_dec t t') as [<-|N].
  - rewrite tid_eqb_refl, pget_upd_eq. reflexivity.
  - rewrite tid_eqb_ne by exact N. rewrite pget_upd_ne by congruence. reflexivity.
Qed.

Lemma binv_upd hist s K u r st b cb fr cal t x g log ev mu K' u' r' st' b' cb' fr' cal' :
  binv hist s K u r st b cb fr cal -> subscribed c t = true ->
  rest c tau K' u' r' st' b' cb' fr' cal' g log ev ->
  env tau hist (fun t' => if tid_eqb t t' then ctl_msgs x ++ pget (y_q s) t' else pend s t') K' u' r' st' b' cb' fr' ->
  match x with CRun _ _ | CFail _ => False | _ => True end ->
  (t = TBaro -> loc_ok b' cb' x /\ cb' = last (map (fun k => k + 1) (crts FBaro log)) 0 /\ Forall (fun k => 0 <= k) (crts FBaro log) /\
      crts FPriorBaro log = firstn 1 (crts FBaro log) /\
      map stamp (on TBaro hist) = map tau (crts FBaro log) ++ map stamp (ctl_msgs x ++ pget (y_q s) TBaro)) ->
  (t <> TBaro -> b' = b /\ cb' = cb /\ crts FBaro log = crts FBaro (y_log s) /\ crts FPriorBaro log = crts FPriorBaro (y_log s)) ->
  binv hist (mkSys g log ev mu (upd (y_ctl s) t x) (y_q s) (y_ok s)) K' u' r' st' b' cb' fr' cal'.
Proof.
  intros B Hs R E Hx L1 L2. destruct B. constructor; auto.
  - intros t'. cbn [y_ctl]. destruct (tid_dec t' t) as [->|N]; [rewrite pget_upd_eq; exact Hx|rewrite pget_upd_ne by exact N; apply bi_ctl0].
  - eapply env_ext; [|exact E]. intros t'. cbn beta. rewrite pend_upd. reflexivity.
  - cbn [y_ctl]. destruct (tid_dec TBaro t) as [<-|N].
    + rewrite pget_upd_eq. apply L1. reflexivity.
    + rewrite pget_upd_ne by exact N. destruct L2 as (-> & -> & _); [congruence|exact bi_loc0].
  - cbn [y_log]. destruct (tid_dec t TBaro) as [->|N]; [apply L1; reflexivity|]. destruct (L2 N) as (_ & -> & -> & _). exact bi_bar0.
  - cbn [y_log]. destruct (tid_dec t TBaro) as [->|N]; [apply L1; reflexivity|]. destruct (L2 N) as (_ & _ & -> & _). exact bi_bpos0.
  - cbn [y_log]. destruct (tid_dec t TBaro) as [->|N]; [apply L1; reflexivity|]. destruct (L2 N) as (_ & _ & -> & ->). exact bi_prior0.
  - cbn [y_log]. rewrite pend_upd. destruct (tid_dec t TBaro) as [->|N].
    + rewrite tid_eqb_refl. apply L1; reflexivity.
    + rewrite tid_eqb_ne by exact N. destruct (L2 N) as (_ & _ & -> & _). exact bi_used0.
  - intros t' Ht'. rewrite pend_upd. destruct (tid_dec t t') as [<-|N]; [congruence|]. rewrite tid_eqb_ne by exact N. apply bi_sub0. exact Ht'.
Qed.

(* result of running a section in a healthy state *)
Inductive advance (s s' : sys) (t : tid) (m : msg) (l : loc) (st b st' b' : Z) : Prop :=
| adv_sleep l' : s' = mkSys (y_g s) (y_log s) (y_ev s) None (upd (y_ctl s) t (CWant m l')) (y_q s) (y_ok s) -> st' = st -> b' = b ->
    prun bp (section c (y_ok s) m l) (y_g s) (y_log s) (y_ev s) = (y_g s, y_log s, y_ev s, ROut (OSleep l')) -> advance s s' t m l st b st' b'
| adv_done : y_ctl s' = upd (y_ctl s) t CIdle -> y_q s' = y_q s -> y_mutex s' = None -> st <= st' -> b <= b' -> advance s s' t m l st b st' b'
| adv_again l' : y_ctl s' = upd (y_ctl s) t (CHold m l') -> y_q s' = y_q s -> y_mutex s' = y_mutex s -> st <= st' -> b <= b' -> st + b < st' + b' ->
    (t = TStereo /\ st < st') \/ t = TBaro -> advance s s' t m l st b st' b'.

Lemma held_pend s t m l : pget (y_ctl s) t = CHold m l -> pend s t = m :: pget (y_q s) t.
Proof. intros E. unfold pend. rewrite E. reflexivity. Qed.

Lemma env_keep hist s t x m K u r st b cb fr : pend s t = m :: pget (y_q s) t -> ctl_msgs x = [m] ->
  env tau hist (pend s) K u r st b cb fr ->
  env tau hist (fun t' => if tid_eqb t t' then ctl_msgs x ++ pget (y_q s) t' else pend s t') K u r st b cb fr.
Proof.
  intros H Hx E. eapply env_ext; [|exact E]. intros t'. cbn beta. destruct (tid_dec t t') as [<-|N].
  - rewrite tid_eqb_refl, Hx. exact H.
  - rewrite tid_eqb_ne by exact N. reflexivity.
Qed.
Lemma env_pop hist s t m K u r st b cb fr : pend s t = m :: pget (y_q s) t ->
  env tau hist (pdrop (pend s) t) K u r st b cb fr ->
  env tau hist (fun t' => if tid_eqb t t' then ctl_msgs CIdle ++ pget (y_q s) t' else pend s t') K u r st b cb fr.
Proof.
  intros H E. eapply env_ext; [|exact E]. intros t'. unfold pdrop. destruct (tid_dec t t') as [<-|N].
  - rewrite tid_eqb_refl, H. reflexivity.
  - rewrite tid_eqb_ne by exact N. reflexivity.
Qed.

Lemma section_step hist s K u r st b cb fr cal t m l : mono tau -> working = true ->
  binv hist s K u r st b cb fr cal -> pget (y_ctl s) t = CHold m l ->
  exists K' u' r' st' b' cb' fr' cal',
    binv hist (complete bp s t m (section c (y_ok s) m l)) K' u' r' st' b' cb' fr' cal' /\
    advance s (complete bp s t m (section c (y_ok s) m l)) t m l st b st' b'.
Proof.
  intros M Hw B Hc. pose proof (held_pend _ _ _ _ Hc) as Hp.
  destruct (en_msg _ _ _ _ _ _ _ _ _ _ (bi_env _ _ _ _ _ _ _ _ _ _ B) t m) as [Hm Ht]; [rewrite Hp; left; reflexivity|].
  assert (Sub : subscribed c t = true).
  { destruct (subscribed c t) eqn:E; [reflexivity|]. apply (bi_sub _ _ _ _ _ _ _ _ _ _ B) in E. rewrite E in Hp. discriminate. }
  pose proof (bi_rest _ _ _ _ _ _ _ _ _ _ B) as R. pose proof (bi_env _ _ _ _ _ _ _ _ _ _ B) as E. pose proof (rs_phase _ _ _ _ _ _ _ _ _ _ _ _ _ R) as PH.
  pose proof (bi_loc _ _ _ _ _ _ _ _ _ _ B) as BL. pose proof (bi_bar _ _ _ _ _ _ _ _ _ _ B) as BB.
  pose proof (bi_prior _ _ _ _ _ _ _ _ _ _ B) as BP. pose proof (bi_bpos _ _ _ _ _ _ _ _ _ _ B) as BZ. pose proof (bi_used _ _ _ _ _ _ _ _ _ _ B) as BU.
  rewrite (bi_ok _ _ _ _ _ _ _ _ _ _ B).
  assert (Hbd : 0 <= u /\ 0 <= r /\ -1 <= st /\ 0 <= b).
  { destruct PH as [PH|PH]; [lia|]. destruct (c_reg c), (c_stereo c), (c_baro c); lia. }
  assert (AV : msg_tid m <> TBaro -> forall g log ev o, prun bp (section c true m l) (y_g s) (y_log s) (y_ev s) = (g, log, ev, o) ->
     crts FBaro log = crts FBaro (y_log s) /\ crts FPriorBaro log = crts FPriorBaro (y_log s)).
  { intros Hne g log ev o EP. split.
    - pose proof (avoids_prun bp FBaro _ (section_avoids FBaro c true m l (or_introl eq_refl) Hne) (y_g s) (y_log s) (y_ev s)) as Y. rewrite EP in Y. exact Y.
    - pose proof (avoids_prun bp FPriorBaro _ (section_avoids FPriorBaro c true m l (or_intror eq_refl) Hne) (y_g s) (y_log s) (y_ev s)) as Y. rewrite EP in Y. exact Y. }
  destruct m as [tt p v bi sp sv nz n|tt me ne pr fi n|tt tf va ze n|tt f ba ca n|tt pr vp nz n]; cbn [msg_tid] in Ht; subst t; cbn [section msg_ok] in *.
  - (* initial odometry *)
    destruct Hm as (Et & -> & -> & -> & Hn).
    assert (HK : K = -1).
    { pose proof (en_init _ _ _ _ _ _ _ _ _ _ E) as X. rewrite Hp, len_cons in X. pose proof (len_nonneg (pget (y_q s) TInit)).
      destruct PH as [PH|PH]; [lia|]. replace (K <? 0) with false in X by lia. lia. }
    subst K. destruct PH as [(_ & -> & -> & -> & -> & ->)|PH]; [|lia].
    destruct (wp_complete _ s TInit (MInit tt p v bi true true true n) _ (S_init bp c tau _ _ _ _ _ _ _ _ _ _ _ tt p v bi n R eq_refl Et Hn)) as (g & log & ev & o & ((-> & R') & EP) & ->).
    exists 0, 0, 0, (-1), 0, 0, fr, cal. split.
    + cbn [finish]. cbn [y_g y_log y_ev y_ctl y_q y_ok]. eapply binv_upd; [exact B|exact Sub|eassumption| |exact I|discriminate|intros _; solve [auto | destruct (AV ltac:(discriminate) _ _ _ _ EP); auto]].
      eapply env_pop; [exact Hp|]. eapply env_init_done; [exact E|exact Hp].
    + apply adv_done; try reflexivity; lia.
  - (* imu *)
    destruct Hm as (-> & -> & -> & Hn). destruct (env_imu_done _ _ _ _ _ _ _ _ _ _ _ _ E Hp ltac:(lia)) as (Et & Hu & HK & E').
    destruct (wp_complete _ s TImu (MImu tt me true true true n) _ (S_imu bp c tau _ _ _ _ _ _ _ _ _ _ _ l tt me n Hw R HK Et Hu Hn)) as (g & log & ev & o & ([(_ & -> & -> & -> & ->)|(_ & -> & K' & HK' & R')] & EP) & ->).
    + exists K, u, r, st, b, cb, fr, cal. split.
      * cbn [finish y_g y_log y_ev y_ctl y_q y_ok]. eapply binv_upd; [exact B|exact Sub|eassumption| |exact I|discriminate|intros _; solve [auto | destruct (AV ltac:(discriminate) _ _ _ _ EP); auto]]. eapply env_keep; eauto.
      * eapply adv_sleep; try reflexivity. rewrite (bi_ok _ _ _ _ _ _ _ _ _ _ B). exact EP.
    + exists K', (u + 1), r, st, b, cb, fr, cal. split.
      * cbn [finish y_g y_log y_ev y_ctl y_q y_ok]. eapply binv_upd; [exact B|exact Sub|eassumption| |exact I|discriminate|intros _; solve [auto | destruct (AV ltac:(discriminate) _ _ _ _ EP); auto]].
        eapply env_pop; [exact Hp|]. eapply env_K; [exact HK|exact HK'|]. exact E'.
      * apply adv_done; try reflexivity; lia.
  - (* registration *)
    destruct Hm as (-> & -> & Hn). destruct (env_reg_done _ _ _ _ _ _ _ _ _ _ _ _ E Hp ltac:(lia)) as (Et & Hu & E').
    assert (HK : 0 <= K) by (destruct PH as [PH|PH]; lia).
    destruct (wp_complete _ s TReg (MReg tt tf false false n) _ (S_reg bp c tau _ _ _ _ _ _ _ _ _ _ _ tt tf n Sub R HK Hu Et Hn)) as (g & log & ev & o & ((-> & K' & HK' & R') & EP) & ->).
    exists K', u, (r + 1), st, b, cb, fr, cal. split.
    + cbn [finish y_g y_log y_ev y_ctl y_q y_ok]. eapply binv_upd; [exact B|exact Sub|eassumption| |exact I|discriminate|intros _; solve [auto | destruct (AV ltac:(discriminate) _ _ _ _ EP); auto]].
      eapply env_pop; [exact Hp|]. eapply env_K; [exact HK|exact HK'|]. exact E'.
    + apply adv_done; try reflexivity; lia.
  - (* stereo *)
    destruct Hm as (-> & Hn & fm & -> & Sf & Hids). pose proof (env_stereo_head _ _ _ _ _ _ _ _ _ _ _ _ _ _ _ _ E Hp) as Hcon.
    destruct (wp_complete _ s TStereo (MStereo tt (Some fm) true ca n) _ (S_stereo bp c tau _ _ _ _ _ _ _ _ _ _ _ tt fm ca n Sub R Hn Sf Hids Hcon)) as
      (g & log & ev & o & ([(Hlt & -> & -> & -> & ->)|[(Hlt & Hle & -> & -> & -> & ->)|[(Hlt & Heq & -> & K' & HK' & R')|(Hlt & Hgt & -> & K' & HK' & R')]]] & EP) & ->).
    + exists K, u, r, st, b, cb, fr, cal. split.
      * cbn [finish y_g y_log y_ev y_ctl y_q y_ok]. eapply binv_upd; [exact B|exact Sub|eassumption| |exact I|discriminate|intros _; solve [auto | destruct (AV ltac:(discriminate) _ _ _ _ EP); auto]]. eapply env_keep; eauto.
      * eapply adv_sleep; try reflexivity. rewrite (bi_ok _ _ _ _ _ _ _ _ _ _ B). exact EP.
    + exists K, u, r, st, b, cb, fr, cal. split.
      * cbn [finish y_g y_log y_ev y_ctl y_q y_ok]. eapply binv_upd; [exact B|exact Sub|eassumption| |exact I|discriminate|intros _; solve [auto | destruct (AV ltac:(discriminate) _ _ _ _ EP); auto]].
        eapply env_pop; [exact Hp|]. eapply env_stereo_drop; eauto.
      * apply adv_done; try reflexivity; lia.
    + assert (HK : 0 <= K). { unfold nn in Hlt. destruct (Z.ltb_spec K 0); lia. }
      exists K', u, r, (st + 1), b, cb, (fr ++ [fm]), true. split.
      * cbn [finish y_g y_log y_ev y_ctl y_q y_ok]. eapply binv_upd; [exact B|exact Sub|eassumption| |exact I|discriminate|intros _; solve [auto | destruct (AV ltac:(discriminate) _ _ _ _ EP); auto]].
        eapply env_pop; [exact Hp|]. eapply env_K; [exact HK|exact HK'|]. eapply env_stereo_done; eauto. lia.
      * apply adv_done; try reflexivity; lia.
    + assert (HK : 0 <= K). { unfold nn in Hlt. destruct (Z.ltb_spec K 0); lia. }
      exists K', u, r, (st + 1), b, cb, fr, cal. split.
      * cbn [finish y_g y_log y_ev y_ctl y_q y_ok]. eapply binv_upd; [exact B|exact Sub|eassumption| |exact I|discriminate|intros _; solve [auto | destruct (AV ltac:(discriminate) _ _ _ _ EP); auto]].
        eapply env_keep; [exact Hp|reflexivity|]. eapply env_K; [exact HK|exact HK'|]. eapply env_stereo_again; eauto. lia.
      * eapply adv_again; try reflexivity; try lia; auto. left. split; [reflexivity|lia].
  - (* barometer *)
    destruct Hm as (-> & -> & Hn). destruct (en_bj _ _ _ _ _ _ _ _ _ _ E (MBaro tt pr true true n)) as (j & Hj & Ej); [rewrite Hp; left; reflexivity|].
    assert (Hl : l = LFirst /\ cb = b \/ exists inner, l = LNext cb inner).
    { rewrite Hc in BL. destruct l; cbn in BL; [left; auto|]. right. subst. eauto. }
    destruct (wp_complete _ s TBaro (MBaro tt pr true true n) _ (S_baro bp c tau _ _ _ _ _ _ _ _ _ _ _ l tt pr n j Sub M R Ej Hj Hn Hl)) as
      (g & log & ev & o & ([(Hlt & -> & -> & -> & ->)|[(Hlt & Hle & -> & R' & C1 & C2)|(Hlt & <- & -> & R' & C1 & C2)]] & EP) & ->).
    + exists K, u, r, st, b, cb, fr, cal. split.
      * cbn [finish y_g y_log y_ev y_ctl y_q y_ok]. eapply binv_upd; [exact B|exact Sub|eassumption| |exact I| |congruence]. { eapply env_keep; eauto. } intros _. cbn [ctl_msgs app]. rewrite <- Hp. conj; auto; reflexivity.
      * eapply adv_sleep; try reflexivity. rewrite (bi_ok _ _ _ _ _ _ _ _ _ _ B). exact EP.
    + exists K, u, r, st, (b + 1), cb, fr, cal. split.
      * cbn [finish y_g y_log y_ev y_ctl y_q y_ok]. eapply binv_upd; [exact B|exact Sub|eassumption| |exact I| |congruence].
        { eapply env_keep; [exact Hp|reflexivity|]. eapply env_baro_again; eauto; lia. }
        intros _. cbn [ctl_msgs app]. rewrite <- Hp, C1, C2. conj; auto; reflexivity.
      * eapply adv_again; try reflexivity; try lia; auto.
    + exists K, u, r, st, (b + 1), (b + 1), fr, cal. split.
      * cbn [finish y_g y_log y_ev y_ctl y_q y_ok]. eapply binv_upd; [exact B|exact Sub|eassumption| |exact I| |congruence].
        { eapply env_pop; [exact Hp|]. eapply env_baro_done; eauto. lia. }
        intros _. cbn [ctl_msgs app]. rewrite C1, C2. conj; auto.
        { cbn. reflexivity. }
        { rewrite map_app. cbn [map]. rewrite last_last. reflexivity. }
        { apply Forall_app. split; [exact BZ|]. constructor; [lia|constructor]. }
        { rewrite BP. destruct (Z.eqb_spec cb 0) as [E0|N0].
          - destruct (crts FBaro (y_log s)) as [|k0 l0] eqn:EB; [reflexivity|]. exfalso.
            assert (X : exists l1 x, k0 :: l0 = l1 ++ [x]) by (destruct (exists_last (l := k0 :: l0)) as (l1 & x & X); [discriminate|eauto]).
            destruct X as (l1 & x & X). rewrite X in BB, BZ. rewrite map_app in BB. cbn [map] in BB. rewrite last_last in BB.
            apply Forall_app in BZ. destruct BZ as [_ BZ]. inversion BZ. lia.
          - destruct (crts FBaro (y_log s)) as [|k0 l0]; [cbn in BB; congruence|]. rewrite app_nil_r. reflexivity. }
        { rewrite BU, Hp, map_app. cbn [map]. rewrite <- app_assoc, Ej. reflexivity. }
      * apply adv_done; try reflexivity; lia.
Qed.

(* ---- the other steps ---- *)
Lemma binv_init : c_marg c = None -> binv [] (sys_init bp c) (-1) 0 0 (-1) 0 0 [] false.
Proof.
  intros Hm.
  assert (W : wf_run bp igm_init (boot c)).
  { unfold boot. rewrite Hm. destruct (c_reg c), (c_stereo c), (c_baro c); cbn; auto 10. }
  assert (EB : crts FBaro (boot c) = [] /\ crts FPriorBaro (boot c) = []).
  { unfold boot. rewrite Hm. destruct (c_reg c), (c_stereo c), (c_baro c); split; reflexivity. }
  destruct EB as [EB1 EB2].
  constructor; try reflexivity; try (unfold sys_init; cbn [y_log]; rewrite ?EB1, ?EB2; first [reflexivity|exact (Forall_nil _)]).
  - constructor.
    + assert (R : rdy (gm_run bp igm_init (boot c))) by (apply (wf_run_rdy bp (boot c) igm_init (rdy_init bp) W)).
      unfold sys_init. cbn [y_g]. unfold boot in *. rewrite Hm in *. clear W. unfold nn. change (-1 <? 0) with true. cbn iota.
      constructor; try exact R.
      * intros n. unfold keyview. cbn [a_u a_r a_s a_b]. destruct (c_reg c), (c_stereo c), (c_baro c); cbn -[String.eqb];
          repeat (match goal with |- context [String.eqb n ?x] => destruct (String.eqb_spec n x); [subst n|] end); cbn; try reflexivity;
          repeat match goal with H : n <> ?x |- _ => rewrite (proj2 (String.eqb_neq n x) H); clear H end; reflexivity.
      * cbn. unfold int_max. lia.
      * intros cc k _ Hk. split.
        { destruct (c_reg c), (c_stereo c), (c_baro c); intros []. }
        { unfold idx_ok in Hk. destruct cc; cbn [cnt aX aV aB aP]; lia. }
      * intros cc. destruct cc; cbn [cnt aX aV aB aP]; unfold int_max; lia.
      * intros k. cbn [aT]. replace ((0 <=? k) && (k <? 0)) with false by lia. destruct (c_reg c), (c_stereo c), (c_baro c); reflexivity.
      * destruct (c_reg c), (c_stereo c), (c_baro c); reflexivity.
      * cbn [a_opt]. intros; lia.
      * destruct (c_reg c), (c_stereo c), (c_baro c); reflexivity.
      * intros j. destruct (c_reg c), (c_stereo c), (c_baro c); cbn; congruence.
      * intros Hs. rewrite Hs. destruct (c_reg c), (c_baro c); cbn; discriminate.
      * destruct (c_reg c), (c_stereo c), (c_baro c); cbn; split; congruence.
      * cbn. congruence.
      * intros k f v. destruct (c_reg c), (c_stereo c), (c_baro c); intros [].
    + left. auto 10.
    + unfold sys_init. cbn [y_log]. unfold boot. rewrite Hm.
      destruct (c_reg c), (c_stereo c), (c_baro c); constructor; try reflexivity; cbn; try (destruct (c_imu c); reflexivity);
        intros l1 o k l2 E; repeat (destruct l1 as [|? l1]; [discriminate|]; injection E as _ E); destruct l1; discriminate.
    + constructor; reflexivity.
  - intros t; destruct t; exact I.
  - constructor; try reflexivity; try (cbn; easy).
    + intros t m. destruct t; intros [].
    + intros i j l a b cc id _ _ Hi. destruct i; discriminate.
    + constructor.
    + exists []. split; [reflexivity|constructor].
    + split; [constructor|exists []; reflexivity].
    + left. reflexivity.
  - intros t _. destruct t; reflexivity.
Qed.

Lemma binv_deliver hist s m s' K u r st b cb fr cal : mono tau -> binv hist s K u r st b cb fr cal -> allowed tau hist (y_ev s) m ->
  sys_step bp c s (ADeliver m) = Some s' -> binv (hist ++ [m]) s' K u r st b cb fr cal.
Proof.
  intros M B Ha. cbn. destruct (subscribed c (msg_tid m)) eqn:Es; [|discriminate]. intros [= <-]. pose proof B as B'. destruct B'.
  assert (PE : forall t, padd (pend s) m t = pend (mkSys (y_g s) (y_log s) (y_ev s) (y_mutex s) (y_ctl s) (upd (y_q s) (msg_tid m) (pget (y_q s) (msg_tid m) ++ [m])) (y_ok s)) t).
  { intros t. unfold padd, pend. cbn [y_ctl y_q]. destruct (tid_dec (msg_tid m) t) as [<-|N].
    - rewrite tid_eqb_refl, pget_upd_eq. rewrite app_assoc. reflexivity.
    - rewrite tid_eqb_ne by exact N. rewrite pget_upd_ne by congruence. reflexivity. }
  constructor; auto.
  - eapply env_ext; [exact PE|]. destruct bi_rest0. eapply env_deliver; eauto.
    + apply (ev_odoms _ _ _ _ rs_ev).
    + apply (ev_trans _ _ _ _ rs_ev).
    + unfold loc_ok, pend in *. destruct (pget (y_ctl s) TBaro) as [|m0 []|m0 []|m0 p|f0]; cbn; auto; right; discriminate.
  - rewrite <- PE. unfold padd. rewrite on_app, map_app, bi_used0. cbn [on filter y_log]. destruct (tid_eqb (msg_tid m) TBaro).
    + rewrite map_app, app_assoc. reflexivity.
    + cbn [map]. apply app_nil_r.
  - intros t Ht. rewrite <- PE. unfold padd. destruct (tid_dec (msg_tid m) t) as [<-|N]; [congruence|].
    rewrite tid_eqb_ne by exact N. apply bi_sub0. exact Ht.
Qed.

Lemma binv_dispatch hist s t s' K u r st b cb fr cal : binv hist s K u r st b cb fr cal ->
  sys_step bp c s (ADispatch t) = Some s' -> binv hist s' K u r st b cb fr cal.
Proof.
  intros B. cbn. destruct (pget (y_ctl s) t) eqn:Ec; try discriminate. destruct (pget (y_q s) t) as [|m q] eqn:Eq; [discriminate|].
  destruct (worker_free c s); [|discriminate]. intros [= <-]. destruct B.
  assert (Hm : prelude_ok m = true).
  { destruct (en_msg _ _ _ _ _ _ _ _ _ _ bi_env0 t m) as [Hm _]; [unfold pend; rewrite Ec, Eq; left; reflexivity|].
    destruct m; auto. cbn in *. apply Hm. }
  rewrite Hm.
  assert (PE : forall t', pend s t' = pend (mkSys (y_g s) (y_log s) (y_ev s) (y_mutex s) (upd (y_ctl s) t (CWant m LFirst)) (upd (y_q s) t q) (y_ok s)) t').
  { intros t'. unfold pend. cbn [y_ctl y_q]. destruct (tid_dec t' t) as [->|N].
    - rewrite !pget_upd_eq, Ec, Eq. reflexivity.
    - rewrite !pget_upd_ne by exact N. reflexivity. }
  constructor; auto.
  - intros t'. cbn [y_ctl]. destruct (tid_dec t' t) as [->|N]; [rewrite pget_upd_eq; exact I|rewrite pget_upd_ne by exact N; apply bi_ctl0].
  - eapply env_ext; [exact PE|exact bi_env0].
  - cbn [y_ctl]. destruct (tid_dec TBaro t) as [<-|N]; [rewrite pget_upd_eq; rewrite Ec in bi_loc0; exact bi_loc0|rewrite pget_upd_ne by exact N; exact bi_loc0].
  - rewrite <- PE. exact bi_used0.
  - intros t' Ht'. rewrite <- PE. auto.
Qed.

Lemma binv_lock hist s t s' K u r st b cb fr cal : binv hist s K u r st b cb fr cal ->
  sys_step bp c s (ALock t) = Some s' -> binv hist s' K u r st b cb fr cal.
Proof.
  intros B. cbn. destruct (pget (y_ctl s) t) as [|m l| | |] eqn:Ec; try discriminate. destruct (y_mutex s); [discriminate|].
  intros [= <-]. destruct B.
  assert (PE : forall t', pend s t' = pend (mkSys (y_g s) (y_log s) (y_ev s) (Some t) (upd (y_ctl s) t (CHold m l)) (y_q s) (y_ok s)) t').
  { intros t'. unfold pend. cbn [y_ctl y_q]. destruct (tid_dec t' t) as [->|N].
    - rewrite !pget_upd_eq, Ec. reflexivity.
    - rewrite !pget_upd_ne by exact N. reflexivity. }
  constructor; auto.
  - intros t'. cbn [y_ctl]. destruct (tid_dec t' t) as [->|N]; [rewrite pget_upd_eq; exact I|rewrite pget_upd_ne by exact N; apply bi_ctl0].
  - eapply env_ext; [exact PE|exact bi_env0].
  - cbn [y_ctl]. destruct (tid_dec TBaro t) as [<-|N]; [rewrite pget_upd_eq; rewrite Ec in bi_loc0; destruct l; exact bi_loc0|rewrite pget_upd_ne by exact N; exact bi_loc0].
  - rewrite <- PE. exact bi_used0.
  - intros t' Ht'. rewrite <- PE. auto.
Qed.

Lemma prun_ev p : forall g log ev, exists l, snd (fst (prun bp p g log ev)) = ev ++ l.
Proof.
  induction p as [o| |op k IH|k IH|e k IH]; intros g log ev; cbn [prun].
  - exists []. rewrite app_nil_r. reflexivity.
  - exists []. rewrite app_nil_r. reflexivity.
  - destruct (gm_step bp g op) as [g' [x| |]]; [apply IH| |]; exists []; rewrite app_nil_r; reflexivity.
  - apply IH.
  - destruct (IH g log (ev ++ [e])) as [l E]. exists (e :: l). rewrite E, <- app_assoc. reflexivity.
Qed.
Lemma settle_ev s : exists l, y_ev (settle bp s) = y_ev s ++ l.
Proof.
  unfold settle. destruct (y_mutex s) as [t|]; [|exists []; rewrite app_nil_r; reflexivity].
  destruct (pget (y_ctl s) t); try (exists []; rewrite app_nil_r; reflexivity).
  unfold complete. pose proof (prun_ev p (y_g s) (y_log s) (y_ev s)) as X. destruct (prun bp p (y_g s) (y_log s) (y_ev s)) as [[[g lg] e] x].
  cbn in X. destruct x as [o|]; [destruct o|]; exact X.
Qed.
Lemma allowed_mono hist ev l m : allowed tau hist ev m -> allowed tau hist (ev ++ l) m.
Proof.
  intros [H1 H2]. split; [exact H1|]. destruct m; auto.
  - destruct H2 as (A & B & C). conj; auto. rewrite odoms_app. destruct (odoms ev); [congruence|discriminate].
  - destruct H2 as (A & B). split; auto. rewrite trans_app. apply in_or_app. auto.
Qed.

Lemma hreach_reach hist s : hreach hist s -> reachable bp c s.
Proof.
  induction 1 as [|hist s m s' H [acts IH] Ha Hs|hist s a s' H [acts IH] Ha Hs].
  - exists []. reflexivity.
  - exists (acts ++ [ADeliver m]). rewrite sys_run_app, IH. cbn [sys_run]. rewrite Hs. reflexivity.
  - exists (acts ++ [a]). rewrite sys_run_app, IH. cbn [sys_run]. rewrite Hs. reflexivity.
Qed.

Definition environment : Prop := mono tau /\ working = true /\ c_marg c = None.

Lemma hreach_healthy hist s : environment -> hreach hist s -> healthy hist (settle bp s).
Proof.
  intros (M & Hw & Hm). induction 1 as [|hist s m s' H IH Ha Hs|hist s a s' H IH Ha Hs].
  - exists (-1), 0, 0, (-1), 0, 0, [], false. apply binv_init. exact Hm.
  - pose proof (reachable_excl _ _ _ (hreach_reach _ _ H)) as X.
    destruct (step_settle bp c s _ s' X Hs) as [[(t & m0 & p & E & _) _]|E]; [discriminate|].
    destruct IH as (K & u & r & st & b & cb & fr & cal & B). exists K, u, r, st, b, cb, fr, cal.
    destruct (settle_ev s) as [l El]. eapply binv_deliver; eauto. rewrite El. apply allowed_mono. exact Ha.
  - pose proof (reachable_excl _ _ _ (hreach_reach _ _ H)) as X.
    destruct (step_settle bp c s _ s' X Hs) as [[_ ->]|E]; [exact IH|].
    destruct IH as (K & u & r & st & b & cb & fr & cal & B). destruct a as [m|t|t|t|]; try contradiction; cbn [ser_of ser_step] in E.
    + exists K, u, r, st, b, cb, fr, cal. eapply binv_dispatch; eauto.
    + exists K, u, r, st, b, cb, fr, cal. eapply binv_lock; eauto.
    + destruct (pget (y_ctl (settle bp s)) t) as [|?|m l| |] eqn:Ec; try discriminate. injection E as <-.
      destruct (section_step _ _ _ _ _ _ _ _ _ _ _ _ _ M Hw B Ec) as (K' & u' & r' & st' & b' & cb' & fr' & cal' & B' & _).
      exists K', u', r', st', b', cb', fr', cal'. exact B'.
Qed.
End Healthy.
